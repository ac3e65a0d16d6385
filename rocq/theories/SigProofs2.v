(** The text the checker covers: messages and packets. *)
From Verif Require Import Base BitsModel BufLemmas SplitLemmas NetaddrModel ReaderModel ReadDispModel WireSpec WireParse SigModel SigSpec SigProofs.
From Coq Require Import Permutation.

Definition msg_hdr (M : wmsg) (size : Z) : bytes :=
  [wm_type M; msg_flags M + (wm_addrlen M - 1)] ++ be16 size ++ (match wm_orig M with Some a => a | None => [] end)
  ++ opt1 (wm_hoplimit M) ++ opt1 (wm_hopcount M) ++ match wm_seqno M with Some s => be16 s | None => [] end.
Lemma enc_msg_parts M : enc_msg M = msg_hdr M (msg_size M) ++ enc_tlvs (wm_tlvs M) ++ flat_map enc_block (wm_blocks M).
Proof. unfold enc_msg, msg_hdr, enc_msg_rest. now rewrite <- !app_assoc. Qed.

Lemma zero_at_split a x c i : i = zlen a -> i <> 0 -> zero_at i (a ++ x :: c) = a ++ 0 :: c.
Proof. intros E N. unfold zero_at. destruct (Z.eqb_spec i 0); [lia|]. now rewrite (zset_split a c x 0 i E). Qed.
Lemma zero_at_0 l : zero_at 0 l = l. Proof. reflexivity. Qed.

Definition hdr_len (orig : option bytes) (hl hc sq : option Z) : Z * Z * Z :=
  let len := 4 + match orig with Some a => zlen a | None => 0 end in
  let h := if isS hl then len else 0 in
  let len := if isS hl then len + 1 else len in
  let c := if isS hc then len else 0 in
  let len := if isS hc then len + 1 else len in
  (if isS sq then len + 2 else len, h, c).
Lemma hdr_of_msg start M : wf_msg M -> hdr_of (msg_ctx start M) = hdr_len (wm_orig M) (wm_hoplimit M) (wm_hopcount M) (wm_seqno M).
Proof.
  intros (_ & _ & O & _). unfold hdr_of, hdr_len, msg_ctx; cbn. destruct (wm_orig M) as [a|]; cbn; [|reflexivity].
  destruct (O a eq_refl) as [_ ->]. reflexivity.
Qed.

Definition zero_hops (M : wmsg) : wmsg :=
  {| wm_type := wm_type M; wm_addrlen := wm_addrlen M; wm_orig := wm_orig M;
     wm_hoplimit := zeroed (wm_hoplimit M); wm_hopcount := zeroed (wm_hopcount M); wm_seqno := wm_seqno M;
     wm_tlvs := wm_tlvs M; wm_blocks := wm_blocks M |}.

Lemma zero_hdr M size len hl hc : hdr_len (wm_orig M) (wm_hoplimit M) (wm_hopcount M) (wm_seqno M) = (len, hl, hc) ->
  len = zlen (msg_hdr M size) /\ forall tail, zero_at hc (zero_at hl (msg_hdr M size ++ tail)) = msg_hdr (zero_hops M) size ++ tail.
Proof.
  unfold hdr_len. intros E. injection E as <- <- <-. unfold msg_hdr.
  set (o := match wm_orig M with Some a => a | None => [] end).
  assert (match wm_orig M with Some a => zlen a | None => 0 end = zlen o) as EO by (unfold o; destruct (wm_orig M); reflexivity).
  rewrite EO. pose proof (zlen_nonneg o) as NO.
  split.
  - rewrite !zlen_app. destruct (wm_hoplimit M), (wm_hopcount M), (wm_seqno M); cbn [isS opt1]; rewrite ?be16_len, ?zlen_cons, ?zlen_nil; lia.
  - intros tail.
    assert (msg_flags (zero_hops M) = msg_flags M) as EF by (unfold msg_flags, zero_hops; destruct (wm_hoplimit M), (wm_hopcount M); reflexivity).
    cbn [zero_hops wm_type wm_addrlen wm_orig wm_seqno wm_hoplimit wm_hopcount]. fold o. rewrite EF.
    set (s := match wm_seqno M with Some s => be16 s | None => [] end).
    set (f := [wm_type M; msg_flags M + (wm_addrlen M - 1)] ++ be16 size ++ o).
    assert (zlen f = 4 + zlen o) as LF by (unfold f; rewrite !zlen_app, be16_len, !zlen_cons, zlen_nil; lia).
    assert (forall a b, ([wm_type M; msg_flags M + (wm_addrlen M - 1)] ++ be16 size ++ o ++ a ++ b ++ s) ++ tail = f ++ a ++ b ++ s ++ tail) as SP.
    { intros. unfold f. now rewrite <- !app_assoc. }
    rewrite !SP. destruct (wm_hoplimit M) as [h|], (wm_hopcount M) as [c|]; cbn [isS opt1 zeroed app].
    + rewrite (zero_at_split f) by lia. 
      replace (f ++ 0 :: c :: s ++ tail) with ((f ++ [0]) ++ c :: s ++ tail) by now rewrite <- app_assoc.
      rewrite (zero_at_split (f ++ [0])) by (rewrite ?zlen_app, ?zlen_cons, ?zlen_nil; lia). now rewrite <- app_assoc.
    + rewrite (zero_at_split f) by lia. apply zero_at_0.
    + rewrite zero_at_0. rewrite (zero_at_split f) by lia. reflexivity.
    + now rewrite !zero_at_0.
Qed.

Lemma msg_hdr_size M size size' : exists r, msg_hdr M size = wm_type M :: (msg_flags M + (wm_addrlen M - 1)) :: size / 256 :: size mod 256 :: r /\
  msg_hdr M size' = wm_type M :: (msg_flags M + (wm_addrlen M - 1)) :: size' / 256 :: size' mod 256 :: r.
Proof. unfold msg_hdr, be16. cbn [app]. eexists. split; reflexivity. Qed.
Lemma set_size a b c d e n : is_u16 n ->
  zset (a :: b :: c :: d :: e) 2 (n / 256) = Some (a :: b :: n / 256 :: d :: e) /\
  zset (a :: b :: n / 256 :: d :: e) 3 (Z.land n 255) = Some (a :: b :: n / 256 :: n mod 256 :: e).
Proof.
  intros N. split.
  - exact (zset_split [a; b] (d :: e) c (n / 256) 2 eq_refl).
  - replace (Z.land n 255) with (n mod 256) by (change 255 with (Z.ones 8); rewrite Z.land_ones by lia; reflexivity).
    exact (zset_split [a; b; n / 256] e d (n mod 256) 3 eq_refl).
Qed.

Lemma zero_hops_rest M : zlen (enc_msg_rest (zero_hops M)) = zlen (enc_msg_rest M).
Proof.
  unfold enc_msg_rest, zero_hops; cbn. rewrite !zlen_app. destruct (wm_hoplimit M), (wm_hopcount M); cbn; rewrite ?zlen_cons, ?zlen_nil; lia.
Qed.
Lemma msg_hdr_len M size : zlen (msg_hdr (zero_hops M) size) = zlen (msg_hdr M size).
Proof.
  unfold msg_hdr, zero_hops; cbn [wm_type wm_orig wm_hoplimit wm_hopcount wm_seqno wm_addrlen]. rewrite !zlen_app, !be16_len.
  destruct (wm_hoplimit M), (wm_hopcount M); cbn [zeroed opt1]; rewrite ?zlen_cons, ?zlen_nil; lia.
Qed.
Lemma msg_hdr_len2 M size size' : zlen (msg_hdr M size) = zlen (msg_hdr M size').
Proof. unfold msg_hdr. now rewrite !zlen_app, !be16_len. Qed.
Lemma bare_hdr M size : msg_hdr (bare_msg M) size = msg_hdr (zero_hops M) size.
Proof. reflexivity. Qed.
Lemma msg_size_parts M n : msg_size M = zlen (msg_hdr M n) + zlen (enc_tlvs (wm_tlvs M)) + zlen (flat_map enc_block (wm_blocks M)).
Proof. rewrite <- (zlen_enc_msg M), enc_msg_parts, !zlen_app. rewrite (msg_hdr_len2 _ _ n). lia. Qed.

Lemma bare_size M : msg_size (bare_msg M) <= msg_size M.
Proof.
  rewrite (msg_size_parts _ 0), (msg_size_parts M 0), bare_hdr, msg_hdr_len. cbn [bare_msg wm_tlvs wm_blocks].
  unfold enc_tlvs. rewrite !zlen_app, !be16_len. pose proof (plain_shorter (wm_tlvs M)). lia.
Qed.

Theorem remove_msg pkt fuel base start M : wf_msg M -> holds pkt start (enc_msg M) -> (length pkt <= fuel)%nat -> 0 <= base ->
  remove_signature_data pkt fuel base (msg_ctx start M) = SOk (enc_msg (bare_msg M)) \/
  too_big 0 (base + zlen (enc_msg (bare_msg M))) (remove_signature_data pkt fuel base (msg_ctx start M)).
Proof.
  intros W H F B. pose proof W as (W1 & W2 & W3 & W4 & W5 & W6 & W7 & W8 & W9).
  destruct (hdr_len (wm_orig M) (wm_hoplimit M) (wm_hopcount M) (wm_seqno M)) as [[len hl] hc] eqn:EH.
  destruct (zero_hdr M (msg_size M) len hl hc EH) as [EL EZ].
  pose proof (hdr_of_msg start M W) as HX. rewrite EH in HX.
  pose proof (zlen_enc_msg M) as SZ. rewrite enc_msg_parts in H, SZ.
  assert (length (flat_map enc_tlv (wm_tlvs M)) <= fuel)%nat as F'.
  { apply holds_bound in H. unfold enc_tlvs in H. rewrite !zlen_app in H. 
    pose proof (zlen_nonneg (msg_hdr M (msg_size M))). pose proof (zlen_nonneg (flat_map enc_block (wm_blocks M))).
    rewrite be16_len in H. unfold zlen in H at 2. unfold zlen at 2 in H. unfold zlen in *. lia. }
  assert (c_size (msg_ctx start M) = zlen (msg_hdr M (msg_size M) ++ enc_tlvs (wm_tlvs M) ++ flat_map enc_block (wm_blocks M))) as CS
    by (symmetry; exact SZ).
  assert (c_size (msg_ctx start M) < 65536) as CL by exact W9.
  pose proof (remove_enc pkt fuel base (msg_ctx start M) len hl hc (msg_hdr M (msg_size M)) (wm_tlvs M)
    (flat_map enc_block (wm_blocks M)) HX EL H CS CL W7 F' B) as R. cbv zeta in R.
  change (c_msg (msg_ctx start M)) with true in R. rewrite orb_true_r in R.
  pose proof (EZ []) as EZ0. rewrite !app_nil_r in EZ0. rewrite EZ0 in R.
  assert (zlen (msg_hdr (zero_hops M) (msg_size M) ++ enc_tlvs (plain (wm_tlvs M)) ++ flat_map enc_block (wm_blocks M)) = msg_size (bare_msg M)) as EB.
  { rewrite (msg_size_parts (bare_msg M) (msg_size M)), bare_hdr, !zlen_app. cbn [bare_msg wm_tlvs wm_blocks]. lia. }
  pose proof (bare_size M) as BS.
  assert (is_u16 (msg_size (bare_msg M))) as BU.
  { unfold is_u16. split; [|lia]. unfold msg_size. pose proof (zlen_nonneg (enc_msg_rest (bare_msg M))). lia. }
  rewrite EB, (u16_id _ BU) in R.
  destruct (msg_hdr_size (zero_hops M) (msg_size M) (msg_size (bare_msg M))) as (r & R1 & R2).
  rewrite R1 in R. cbn [app] in R.
  match type of R with context [zset (?a :: ?b :: ?c :: ?d :: ?e) 2 (?n / 256)] =>
    destruct (set_size a b c d e n BU) as [S1 S2] end.
  rewrite S1, S2 in R. destruct R as [R|R].
  - left. rewrite R. f_equal. rewrite enc_msg_parts, bare_hdr, R2. cbn [app bare_msg wm_tlvs wm_blocks]. reflexivity.
  - right. destruct R as (n & N1 & N2 & N3). exists n. split; [exact N1|]. split; [exact N2|].
    rewrite zlen_enc_msg. rewrite <- EB, !zlen_app, msg_hdr_len. unfold enc_tlvs. rewrite zlen_app, be16_len. lia.
Qed.

(** packets with a TLV block *)
Definition pkt_hdr (sq : option Z) (tl : bool) : bytes :=
  [has sq 0x08 + (if tl then 0x04 else 0)] ++ match sq with Some s => be16 s | None => [] end.
Lemma enc_pkt_parts p ws : wp_tlvs p = Some ws ->
  enc_pkt p = pkt_hdr (wp_seqno p) true ++ enc_tlvs ws ++ flat_map enc_msg (wp_msgs p).
Proof. intros E. unfold enc_pkt, pkt_hdr. rewrite E. cbn [has]. now rewrite <- !app_assoc. Qed.

Theorem remove_pkt pkt fuel base p ws : wf_pkt p -> wp_tlvs p = Some ws -> pkt = enc_pkt p -> (length pkt <= fuel)%nat -> 0 <= base ->
  remove_signature_data pkt fuel base (pkt_ctx p) = SOk (enc_pkt (bare_pkt p)) \/
  too_big 0 (base + zlen (enc_pkt (bare_pkt p))) (remove_signature_data pkt fuel base (pkt_ctx p)).
Proof.
  intros (W1 & W2 & W3 & W4) ET -> F B.
  set (hdr := pkt_hdr (wp_seqno p) true).
  assert (holds (enc_pkt p) 0 (hdr ++ enc_tlvs ws ++ flat_map enc_msg (wp_msgs p))) as H.
  { exists [], []. rewrite app_nil_r. split; [now rewrite (enc_pkt_parts p ws ET)|reflexivity]. }
  assert (hdr_of (pkt_ctx p) = (zlen hdr, 0, 0)) as HX.
  { unfold hdr_of, pkt_ctx; cbn. unfold hdr, pkt_hdr. destruct (wp_seqno p); cbn; reflexivity. }
  assert (length (flat_map enc_tlv ws) <= fuel)%nat as F'.
  { rewrite (enc_pkt_parts p ws ET) in F. unfold enc_tlvs in F. rewrite !app_length in F. lia. }
  assert (c_size (pkt_ctx p) = zlen (hdr ++ enc_tlvs ws ++ flat_map enc_msg (wp_msgs p))) as CS
    by (cbn [pkt_ctx c_size]; now rewrite (enc_pkt_parts p ws ET)).
  assert (c_size (pkt_ctx p) < 65536) as CL by exact W4.
  pose proof (remove_enc (enc_pkt p) fuel base (pkt_ctx p) (zlen hdr) 0 0 hdr ws (flat_map enc_msg (wp_msgs p)) HX eq_refl H CS CL
    (W2 _ ET) F' B) as R. cbv zeta in R. rewrite !zero_at_0 in R.
  change (c_msg (pkt_ctx p)) with false in R. rewrite orb_false_r in R.
  assert (enc_pkt (bare_pkt p) = match plain ws with
          | [] => pkt_hdr (wp_seqno p) false ++ flat_map enc_msg (wp_msgs p)
          | ws' => hdr ++ enc_tlvs ws' ++ flat_map enc_msg (wp_msgs p) end) as EB.
  { unfold enc_pkt, bare_pkt. cbn [wp_seqno wp_tlvs wp_msgs]. rewrite ET. cbn [bare_tlvs].
    destruct (plain ws) as [|w l]; cbn [has]; unfold hdr, pkt_hdr; rewrite <- ?app_assoc; reflexivity. }
  destruct (plain ws) as [|w l] eqn:EP.
  - cbn [flat_map] in R. change (zlen (@nil Z) =? 0) with true in R. cbn [negb] in R.
    assert (match hdr with [] => SOk (flat_map enc_msg (wp_msgs p)) | b0 :: h' => SOk (Z.land b0 (255 - 4) :: h' ++ flat_map enc_msg (wp_msgs p)) end
      = SOk (enc_pkt (bare_pkt p))) as E.
    { rewrite EB. unfold hdr, pkt_hdr. destruct (wp_seqno p); reflexivity. }
    rewrite E in R. destruct R as [R|R]; [left; exact R|right]. destruct R as (n & N1 & N2 & N3). exists n. split; [exact N1|].
    split; [exact N2|]. rewrite EB, zlen_app. change (zlen (@nil Z)) with 0 in N3.
    assert (zlen hdr = zlen (pkt_hdr (wp_seqno p) false)) by (unfold hdr, pkt_hdr; now rewrite !zlen_app). lia.
  - pose proof (plain_nonempty ws) as PN. rewrite EP in PN. specialize (PN ltac:(discriminate)).
    destruct (Z.eqb_spec (zlen (flat_map enc_tlv (w :: l))) 0); [lia|]. cbn [negb] in R.
    rewrite EB. destruct R as [R|R]; [left; exact R|right]. destruct R as (k & N1 & N2 & N3). exists k. split; [exact N1|]. split; [exact N2|].
    unfold enc_tlvs. rewrite !zlen_app, be16_len. lia.
Qed.
