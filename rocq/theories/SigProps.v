(** C111 to C114: RFC 7182 signatures. *)
From Verif Require Import Base BitsModel BufLemmas SplitLemmas NetaddrModel ReaderModel ReadDispModel WireSpec WireParse SigModel SigSpec SigProofs SigProofs2 SigProofs3 SigProofs4.
From Coq Require Import Permutation.

Lemma bare_signed M g icv M1 : plain (wm_tlvs M) = wm_tlvs M -> travelled (with_tlvs M (sig_tlv g icv :: wm_tlvs M)) M1 ->
  bare_msg M1 = bare_msg M.
Proof.
  intros P (T1 & T2 & T3 & T4 & T5 & T6 & T7 & T8). cbn in T1, T2, T3, T4, T5, T6, T7, T8.
  unfold bare_msg. rewrite T1, T2, T3, T4, T5, T6, T7, T8. reflexivity.
Qed.
Lemma bare_plain M : plain (wm_tlvs M) = wm_tlvs M -> bare_msg M = zero_hops M.
Proof. intros P. unfold bare_msg, zero_hops. now rewrite P. Qed.
Lemma plain_no_icv ws : plain ws = ws -> filter is_icv ws = [].
Proof.
  intros P. rewrite <- P. clear P. induction ws as [|w ws IH]; [reflexivity|]. cbn [plain filter].
  destruct (is_icv w) eqn:E; cbn [negb]; [exact IH|]. cbn [filter]. rewrite E. exact IH.
Qed.
Lemma covered_src g a b kid body : (g_srcspec g = true -> a = b) -> covered g a kid body = covered g b kid body.
Proof. intros H. unfold covered. destruct (g_srcspec g); [now rewrite H|reflexivity]. Qed.
Lemma delivered_one ws g icv ts : plain ws = ws -> delivered (sig_tlv g icv :: ws) ts -> ts = [shown_icv (sig_tlv g icv)].
Proof.
  intros P D. unfold delivered in D. cbn [filter] in D. change (is_icv (sig_tlv g icv)) with true in D. cbn iota in D.
  rewrite (plain_no_icv ws P) in D. cbn [map] in D. apply Permutation_sym, Permutation_length_1_inv in D. exact D.
Qed.

(** ** C111: what a router signs, its neighbors accept *)
(** A message without a signature is signed and sent; wherever it arrives, with
    whatever hop limit and hop count, a router with the same key accepts it if
    none of its other keys is concerned. *)
Theorem C111_message_roundtrip_partial sign ssize g src M icv room :
  wf_msg M -> plain (wm_tlvs M) = wm_tlvs M -> wf_sig g -> g_ready g = true -> icv <> [] ->
  genuine sign g src (g_keyid g) icv (enc_msg (bare_msg M)) -> zlen icv <= ssize (g_hash g) (g_crypt g) ->
  zlen (covered g src (g_keyid g) (enc_msg M)) <= STATIC_SIZE ->
  let M' := with_tlvs M (sig_tlv g icv :: wm_tlvs M) in
  msg_size M' <= room -> room < 65536 ->
  add_signature sign ssize g (Some src) (Some (shape M)) (enc_msg M) room
    = SOk (Some (covered g src (g_keyid g) (enc_msg (bare_msg M)), enc_msg M')) /\
  forall M1 pkt start fuel gs ts addr, travelled M' M1 -> wf_msg M1 -> holds pkt start (enc_msg M1) -> (length pkt <= fuel)%nat ->
    (g_srcspec g = true -> addr = src) -> delivered (wm_tlvs M1) ts -> Forall (quiet (wm_type M) g) gs ->
    cb_signature_tlv sign fuel pkt addr (msg_ctx start M1) gs ts = SOk R_OKAY.
Proof.
  intros W P WS R NE GEN LI FIT M' FR LR. pose proof (bare_plain M P) as BP.
  assert (zlen (covered g src (g_keyid g) (enc_msg (zero_hops M))) = zlen (covered g src (g_keyid g) (enc_msg M))) as LZ.
  { unfold covered. rewrite !zlen_app, !zlen_enc_msg. unfold msg_size. now rewrite zero_hops_rest. }
  split.
  - rewrite BP in *. apply add_msg; auto. rewrite LZ. exact FIT.
  - intros M1 pkt start fuel gs ts addr T W1 H F A D Q.
    pose proof (bare_signed M g icv M1 P T) as BS.
    assert (wm_tlvs M1 = sig_tlv g icv :: wm_tlvs M) as ET by apply T. assert (wm_type M1 = wm_type M) as EY by apply T.
    rewrite ET in D. rewrite (delivered_one _ _ _ _ P D).
    pose proof (covered_src g addr src (g_keyid g) (enc_msg (bare_msg M)) A) as CS.
    apply (one_accepted sign pkt fuel (msg_ctx start M1) (wm_type M) addr (enc_msg (bare_msg M))); auto.
    + intros base B. rewrite <- BS. apply remove_msg; auto.
    + rewrite CS, BP, LZ. exact FIT.
    + apply genuine_validates. unfold genuine. rewrite CS. exact GEN.
Qed.

(** The same for packets.  A packet with an empty TLV block is left out: the
    receiver removes the block, the sender had signed it. *)
Theorem C111_packet_roundtrip_partial sign ssize g src p icv room :
  wf_pkt p -> plain (tlvs_of p) = tlvs_of p -> wp_tlvs p <> Some [] -> wf_sig g -> g_ready g = true -> icv <> [] ->
  genuine sign g src (g_keyid g) icv (enc_pkt p) -> zlen icv <= ssize (g_hash g) (g_crypt g) ->
  zlen (covered g src (g_keyid g) (enc_pkt p)) <= STATIC_SIZE ->
  let p' := {| wp_seqno := wp_seqno p; wp_tlvs := Some (sig_tlv g icv :: tlvs_of p); wp_msgs := wp_msgs p |} in
  zlen (enc_pkt p') <= room -> room < 65536 ->
  add_signature sign ssize g (Some src) None (enc_pkt p) room = SOk (Some (covered g src (g_keyid g) (enc_pkt p), enc_pkt p')) /\
  forall fuel gs ts addr, wf_pkt p' -> (length (enc_pkt p') <= fuel)%nat ->
    (g_srcspec g = true -> addr = src) -> delivered (tlvs_of p') ts -> Forall (quiet PKT_TYPE g) gs ->
    packet_consumer sign true fuel (enc_pkt p') addr (pkt_ctx p') gs ts = SOk R_OKAY.
Proof.
  intros W P NB WS R NE GEN LI FIT p' FR LR. split; [apply add_pkt; auto|].
  intros fuel gs ts addr W' F A D Q. cbn [packet_consumer].
  assert (bare_pkt p' = p) as BS.
  { unfold bare_pkt, p'. cbn [wp_seqno wp_tlvs wp_msgs bare_tlvs]. unfold plain. cbn [filter]. change (is_icv (sig_tlv g icv)) with true. cbn [negb].
    fold (plain (tlvs_of p)). rewrite P. destruct p as [sq [[|w ws]|] ms]; cbn in *; [congruence|reflexivity|reflexivity]. }
  change (tlvs_of p') with (sig_tlv g icv :: tlvs_of p) in D. rewrite (delivered_one _ _ _ _ P D).
  pose proof (covered_src g addr src (g_keyid g) (enc_pkt p) A) as CS.
  apply (one_accepted sign (enc_pkt p') fuel (pkt_ctx p') PKT_TYPE addr (enc_pkt p)); auto.
  - intros base B. pose proof (remove_pkt (enc_pkt p') fuel base p' (sig_tlv g icv :: tlvs_of p) W' eq_refl eq_refl F B) as RP. rewrite BS in RP. exact RP.
  - now rewrite CS.
  - apply genuine_validates. unfold genuine. rewrite CS. exact GEN.
Qed.

(** a toy provider: functions, length and sum of the text, first byte of the key *)
Definition toy (h c : Z) (text key : bytes) : option bytes :=
  Some [h; c; zlen text mod 256; fold_left (fun a b => (a * 31 + b) mod 251) text (match key with k :: _ => k | [] => 0 end)].
Definition key1 : sig := shared_sig 3 3 [107; 49] [17; 1] (fun _ => true) true false true.
Definition key2 : sig := shared_sig 4 3 [107; 50] [23; 1] (fun _ => true) true false true.
Definition hello : wmsg :=
  {| wm_type := 1; wm_addrlen := 4; wm_orig := Some [10; 0; 0; 1]; wm_hoplimit := Some 8; wm_hopcount := Some 0; wm_seqno := Some 700;
     wm_tlvs := [{| w_type := 1; w_ext := None; w_index := WAll; w_long := false; w_value := Some [100]; w_multi := false |}];
     wm_blocks := [] |}.
Definition toy_icv (g : sig) (M : wmsg) : bytes :=
  match toy (g_hash g) (g_crypt g) (covered g [] (g_keyid g) (enc_msg (bare_msg M))) (g_key g) with Some s => s | None => [] end.

Lemma wf_hello : wf_msg hello.
Proof.
  unfold wf_msg, hello; cbn [wm_type wm_addrlen wm_orig wm_hoplimit wm_hopcount wm_seqno wm_tlvs wm_blocks].
  split; [unfold is_u8; lia|]. split; [lia|]. split. { intros a E. injection E as <-. split; [repeat constructor; unfold is_u8; lia|reflexivity]. }
  split. { intros a E. injection E as <-. unfold is_u8; lia. } split. { intros a E. injection E as <-. unfold is_u8; lia. }
  split. { intros a E. injection E as <-. unfold is_u16; lia. }
  split; [|split; [constructor|vm_compute; reflexivity]].
  constructor; [|constructor]. unfold wf_tlv; cbn. split; [unfold is_u8; lia|]. split; [discriminate|]. split; [repeat constructor; unfold is_u8; lia|].
  split; [vm_compute; reflexivity|auto].
Qed.
Example C111_ex :
  wf_msg hello /\ plain (wm_tlvs hello) = wm_tlvs hello /\ wf_sig key1 /\
  genuine toy key1 [] (g_keyid key1) (toy_icv key1 hello) (enc_msg (bare_msg hello)) /\
  zlen (covered key1 [] (g_keyid key1) (enc_msg hello)) <= STATIC_SIZE /\
  quiet 1 key1 key1 /\
  (let M1 := {| wm_type := 1; wm_addrlen := 4; wm_orig := Some [10; 0; 0; 1]; wm_hoplimit := Some 5; wm_hopcount := Some 3; wm_seqno := Some 700;
                wm_tlvs := sig_tlv key1 (toy_icv key1 hello) :: wm_tlvs hello; wm_blocks := [] |} in
   travelled (with_tlvs hello (sig_tlv key1 (toy_icv key1 hello) :: wm_tlvs hello)) M1 /\
   cb_signature_tlv toy 60 (enc_msg M1) [] (msg_ctx 0 M1) [key1] [shown_icv (sig_tlv key1 (toy_icv key1 hello))] = SOk R_OKAY /\
   (* one byte of the message changed *)
   let M2 := with_tlvs M1 (sig_tlv key1 (toy_icv key1 hello) :: [{| w_type := 1; w_ext := None; w_index := WAll; w_long := false; w_value := Some [101]; w_multi := false |}]) in
   cb_signature_tlv toy 60 (enc_msg M2) [] (msg_ctx 0 M2) [key1] [shown_icv (sig_tlv key1 (toy_icv key1 hello))] = SOk R_DROP_MESSAGE).
Proof.
  split; [exact wf_hello|].
  split; [reflexivity|]. split. { repeat split; try (cbn; lia). unfold all_bytes, is_u8; repeat constructor; lia. }
  split; [vm_compute; reflexivity|]. split; [vm_compute; discriminate|]. split; [left; repeat split; vm_compute; reflexivity|].
  cbv zeta. split; [repeat split|]. split; vm_compute; reflexivity.
Qed.

(** False of the code: a message with two signatures is thrown away by a
    router with both keys, because the second ICV was made over a message that
    still had the first one and is compared with an ICV over a message without
    any. *)
Theorem C111_two_signatures_refuted : exists sign ssize g1 g2 M text1 text2 out1 M2,
  wf_sig g1 /\ wf_sig g2 /\ g_ready g1 = true /\ g_ready g2 = true /\
  add_signature sign ssize g1 (Some []) (Some (shape M)) (enc_msg M) 1400 = SOk (Some (text1, out1)) /\
  add_signature sign ssize g2 (Some []) (Some (shape M)) out1 1400 = SOk (Some (text2, enc_msg M2)) /\
  forall ts, delivered (wm_tlvs M2) ts ->
    cb_signature_tlv sign 200 (enc_msg M2) [] (msg_ctx 0 M2) [g1; g2] ts = SOk R_DROP_MESSAGE.
Proof.
  set (M1 := with_tlvs hello (sig_tlv key1 (toy_icv key1 hello) :: wm_tlvs hello)).
  set (icv2 := match toy 4 3 (covered key2 [] (g_keyid key2) (enc_msg (zero_hops M1))) (g_key key2) with Some s => s | None => [] end).
  exists toy, (fun _ _ => 32), key1, key2, hello.
  exists (covered key1 [] (g_keyid key1) (enc_msg (zero_hops hello))), (covered key2 [] (g_keyid key2) (enc_msg (zero_hops M1))), (enc_msg M1), (with_tlvs M1 (sig_tlv key2 icv2 :: wm_tlvs M1)).
  split; [repeat split; try (cbn; lia); unfold all_bytes, is_u8; repeat constructor; lia|].
  split; [repeat split; try (cbn; lia); unfold all_bytes, is_u8; repeat constructor; lia|].
  split; [reflexivity|]. split; [reflexivity|]. split; [vm_compute; reflexivity|]. split; [vm_compute; reflexivity|].
  intros ts D. unfold delivered in D.
  set (t1 := shown_icv (sig_tlv key1 (toy_icv key1 hello))). set (t2 := shown_icv (sig_tlv key2 icv2)).
  assert (map shown_icv (filter is_icv (wm_tlvs (with_tlvs M1 (sig_tlv key2 icv2 :: wm_tlvs M1)))) = [t2; t1]) as EL by reflexivity.
  rewrite EL in D. apply Permutation_sym, Permutation_length_2_inv in D. destruct D as [-> | ->]; vm_compute; reflexivity.
Qed.

(** ** C112: what is accepted was signed *)
Lemma shown_speaks sign mt g ws ts addr body t : Forall (wf_tlv 0) ws -> delivered ws ts -> In t ts -> okI sign mt addr body g t ->
  passes sign g addr ws body.
Proof.
  intros W D I0 (kid & icv & E1 & E2 & E3 & E4 & E5 & E6 & E7).
  apply (Permutation_in _ D) in I0. apply in_map_iff in I0 as (w & <- & I1). apply filter_In in I1 as [I1 I2]. unfold is_icv in I2. apply Z.eqb_eq in I2.
  exists w, kid, icv. split; [exact I1|]. split.
  - split; [exact I2|]. split; [|auto]. cbn [shown_icv i_ext] in E1. destruct (w_ext w) as [e|]; [now rewrite E1|].
    unfold sig_ext in E1. destruct (g_srcspec g); discriminate.
  - unfold validate_by_sign in E7. unfold genuine. destruct (sign _ _ _ _) as [s|]; [|auto].
    destruct (Z.eqb_spec (zlen s) (zlen icv)); cbn [negb] in E7.
    + left. apply beqb_eq in E7. now rewrite E7.
    + right. right. eauto.
Qed.
Lemma delivered_bytes ws ts : Forall (wf_tlv 0) ws -> delivered ws ts -> Forall (fun t => all_bytes (i_val t)) ts.
Proof.
  intros W D. apply Forall_forall. intros t I0. apply (Permutation_in _ D) in I0. apply in_map_iff in I0 as (w & <- & I1). apply filter_In in I1 as [I1 _].
  rewrite Forall_forall in W. apply W in I1. apply I1.
Qed.

(** An accepted message has, for every mandatory key that is concerned, an ICV
    TLV about exactly this message (without signatures and hop counters).
    Missing: that the ICV was made with the key is only certain if the signing
    function works and gives ICVs of this length; see the refutation. *)
Theorem C112_accepted_message_partial sign pkt start fuel M gs ts addr :
  wf_msg M -> holds pkt start (enc_msg M) -> (length pkt <= fuel)%nat -> delivered (wm_tlvs M) ts ->
  cb_signature_tlv sign fuel pkt addr (msg_ctx start M) gs ts = SOk R_OKAY ->
  forall g, In g gs -> g_drop g = true -> g_match g (wm_type M) = true -> passes sign g addr (wm_tlvs M) (enc_msg (bare_msg M)).
Proof.
  intros W H F D E g I0 DR MA. assert (Forall (wf_tlv 0) (wm_tlvs M)) as WT by apply W.
  destruct (accepted_passes sign pkt fuel (msg_ctx start M) (wm_type M) addr (enc_msg (bare_msg M))
    (fun base B => remove_msg pkt fuel base start M W H F B) ts gs (delivered_bytes _ _ WT D) eq_refl E g I0 DR MA) as (t & I1 & O).
  exact (shown_speaks sign _ g _ ts addr _ t WT D I1 O).
Qed.
Theorem C112_accepted_packet_partial sign fuel p gs ts addr :
  wf_pkt p -> wp_tlvs p <> None -> (length (enc_pkt p) <= fuel)%nat -> delivered (tlvs_of p) ts ->
  packet_consumer sign (isS (wp_tlvs p)) fuel (enc_pkt p) addr (pkt_ctx p) gs ts = SOk R_OKAY ->
  forall g, In g gs -> g_drop g = true -> g_match g PKT_TYPE = true -> passes sign g addr (tlvs_of p) (enc_pkt (bare_pkt p)).
Proof.
  intros W NN F D E g I0 DR MA. destruct (wp_tlvs p) as [ws|] eqn:ET; [|congruence]. cbn [isS packet_consumer] in E.
  assert (tlvs_of p = ws) as TO by (unfold tlvs_of; now rewrite ET). rewrite TO in *.
  assert (Forall (wf_tlv 0) ws) as WT by (apply W; exact ET).
  destruct (accepted_passes sign (enc_pkt p) fuel (pkt_ctx p) PKT_TYPE addr (enc_pkt (bare_pkt p))
    (fun base B => remove_pkt (enc_pkt p) fuel base p ws W ET eq_refl F B) ts gs (delivered_bytes _ _ WT D) eq_refl E g I0 DR MA) as (t & I1 & O).
  exact (shown_speaks sign _ g _ ts addr _ t WT D I1 O).
Qed.
(** With a working provider and ICVs of the right length nothing is missing. *)
Theorem C112_right_length sign g addr ws body : passes sign g addr ws body ->
  (forall w kid icv, In w ws -> speaks_for g w kid icv -> exists s, sign (g_hash g) (g_crypt g) (covered g addr kid body) (g_key g) = Some s /\ zlen s = zlen icv) ->
  signed_by sign g addr ws body.
Proof.
  intros (w & kid & icv & I0 & S0 & C) L. exists w, kid, icv. split; [exact I0|]. split; [exact S0|].
  destruct (L w kid icv I0 S0) as (s & E & LS). destruct C as [C|[C|(s' & E' & N)]]; [exact C|congruence|].
  rewrite E in E'. injection E' as <-. contradiction.
Qed.
Example C112_ex :
  let M1 := with_tlvs hello (sig_tlv key1 (toy_icv key1 hello) :: wm_tlvs hello) in
  delivered (wm_tlvs M1) [shown_icv (sig_tlv key1 (toy_icv key1 hello))] /\ g_drop key1 = true /\ g_match key1 1 = true /\
  cb_signature_tlv toy 60 (enc_msg M1) [] (msg_ctx 0 M1) [key1] [shown_icv (sig_tlv key1 (toy_icv key1 hello))] = SOk R_OKAY /\
  cb_signature_tlv toy 60 (enc_msg hello) [] (msg_ctx 0 hello) [key1] [] = SOk R_DROP_MESSAGE.
Proof. cbv zeta. split; [apply Permutation_refl|]. split; [reflexivity|]. split; [reflexivity|]. split; vm_compute; reflexivity. Qed.

(** False of the code: anybody can have any message accepted, whatever the key
    and the provider: an ICV of a length the provider does not make is taken as
    correct, because [_cb_validate_by_sign] returns -1 as a bool. *)
Theorem C112_wrong_length_refuted : forall sign g M junk addr gs,
  (forall text s, sign (g_hash g) (g_crypt g) text (g_key g) = Some s -> zlen s <> zlen junk) ->
  wf_sig g -> g_verify g (g_keyid g) = IdOkay -> g_ready g = true ->
  plain (wm_tlvs M) = wm_tlvs M -> junk <> [] -> 
  let M' := with_tlvs M (sig_tlv g junk :: wm_tlvs M) in
  wf_msg M' -> zlen (covered g addr (g_keyid g) (enc_msg (bare_msg M))) <= STATIC_SIZE -> Forall (quiet (wm_type M) g) gs ->
  In g gs ->
  cb_signature_tlv sign (length (enc_msg M')) (enc_msg M') addr (msg_ctx 0 M') gs [shown_icv (sig_tlv g junk)] = SOk R_OKAY /\
  ~ signed_by sign g addr (wm_tlvs M') (enc_msg (bare_msg M')).
Proof.
  intros sign g M junk addr gs L WS V R P NE M' W FIT Q I0.
  assert (bare_msg M' = bare_msg M) as BS by (unfold bare_msg, M'; cbn; reflexivity).
  split.
  - apply (one_accepted sign (enc_msg M') (length (enc_msg M')) (msg_ctx 0 M') (wm_type M) addr (enc_msg (bare_msg M))); auto.
    + intros base B. rewrite <- BS. apply remove_msg; auto. apply holds_self.
    + unfold validate_by_sign. destruct (sign _ _ _ _) as [s|] eqn:ES; [|reflexivity]. apply L in ES. destruct (Z.eqb_spec (zlen s) (zlen junk)); [contradiction|reflexivity].
  - intros (w & kid & icv & [<-|I1] & (S1 & S2 & S3 & S4 & S5 & S6) & G).
    + unfold sig_tlv, value_bytes, sig_value in S3. cbn [w_value app] in S3. injection S3 as K1 K2. apply app_inj_len in K2 as [Ek Ei]; [|lia]. rewrite <- Ei in G.
      apply L in G. contradiction.
    + rewrite <- P in I1. apply filter_In in I1 as [_ I1]. unfold is_icv in I1. rewrite S1 in I1. discriminate.
Qed.
Example C112_forged_ex :
  (forall text s, toy (g_hash key1) (g_crypt key1) text (g_key key1) = Some s -> zlen s <> zlen [0]) /\
  let M' := with_tlvs hello (sig_tlv key1 [0] :: wm_tlvs hello) in
  cb_signature_tlv toy 60 (enc_msg M') [] (msg_ctx 0 M') [key1] [shown_icv (sig_tlv key1 [0])] = SOk R_OKAY.
Proof. split; [intros text s E; injection E as <-; change (4 <> 1); lia|vm_compute; reflexivity]. Qed.

(** False of the code: the packet signature is not asked for if the packet has
    no TLV block; the reader does not call the signature consumer then. *)
Theorem C112_no_tlvblock_refuted : forall sign g p addr fuel, g_drop g = true -> g_match g PKT_TYPE = true -> wp_tlvs p = None ->
  packet_consumer sign (isS (wp_tlvs p)) fuel (enc_pkt p) addr (pkt_ctx p) [g] [] = SOk R_OKAY /\
  ~ passes sign g addr (tlvs_of p) (enc_pkt (bare_pkt p)).
Proof.
  intros sign g p addr fuel D M E. rewrite E. cbn [isS packet_consumer]. split; [reflexivity|].
  intros (w & kid & icv & I0 & _). unfold tlvs_of in I0. rewrite E in I0. contradiction.
Qed.
(** ... and this is what the reader does: without a TLV block no consumer gets
    a TLV or block callback, and nothing is dropped. *)
Theorem C112_reader_skips answer pkt cs seq tlvs n st : Forall (fun c => ReadDispModel.c_start c = false) cs ->
  pkt_loop answer pkt cs seq false tlvs n st = Ok (OKAY, tlvs, (n + length cs)%nat, st).
Proof.
  intros F. revert n. induction F as [|c cs C F IH]; intros n; cbn [pkt_loop length].
  - now rewrite Nat.add_0_r.
  - rewrite C. cbn [andb negb Z.eqb]. change (OKAY =? OKAY) with true. cbn [negb]. rewrite IH. f_equal. f_equal. f_equal. lia.
Qed.

(** ** C113: signatures are checked and made within the buffers and in finite time *)
(** Well-formed messages that leave room for addresses and key ids are checked
    without leaving a buffer. *)
Theorem C113_check_message_partial sign pkt start fuel M gs ts addr :
  wf_msg M -> holds pkt start (enc_msg M) -> (length pkt <= fuel)%nat -> delivered (wm_tlvs M) ts ->
  Forall (fun g => g_ready g = true) gs -> zlen addr + 258 + msg_size M <= STATIC_SIZE ->
  cb_signature_tlv sign fuel pkt addr (msg_ctx start M) gs ts = SOk R_OKAY \/
  cb_signature_tlv sign fuel pkt addr (msg_ctx start M) gs ts = SOk R_DROP_MESSAGE.
Proof.
  intros W H F D R FIT. unfold cb_signature_tlv. cbn [msg_ctx c_msg c_type]. destruct (negb _); [auto|].
  assert (Forall (wf_tlv 0) (wm_tlvs M)) as WT by apply W.
  assert (zlen addr + 258 + zlen (enc_msg (bare_msg M)) <= STATIC_SIZE) as FIT' by (rewrite zlen_enc_msg; pose proof (bare_size M); lia).
  destruct (check_safe sign pkt fuel (msg_ctx start M) (wm_type M) addr (enc_msg (bare_msg M)) (fun base B => remove_msg pkt fuel base start M W H F B)
    gs ts R (delivered_bytes _ _ WT D) FIT' (map (fun _ => false) gs)) as [r E].
  change {| c_msg := true; c_type := wm_type M; c_start := start; c_size := msg_size M; c_pktseq := false; c_orig := isS (wm_orig M);
            c_alen := wm_addrlen M; c_hl := isS (wm_hoplimit M); c_hc := isS (wm_hopcount M); c_seq := isS (wm_seqno M) |} with (msg_ctx start M).
  rewrite E. cbn [sbind]. destruct r as [ver|]; [|auto]. destruct (missing _ _ _); auto.
Qed.
Example C113_ex : zlen [10; 0; 0; 1] + 258 + msg_size hello <= STATIC_SIZE. Proof. vm_compute. discriminate. Qed.

(** A message the reader takes, with a TLV that has an index although it
    belongs to a message. *)
Definition hang : bytes :=
  [0; 1; 3; 0; 22; 0; 16; 5; 0x90; 1; 4; 0; 0; 0; 0xaa; 7; 0x40; 5; 0x98; 0x80; 0xff; 0xfb; 0].
Definition plain_ctx (start size : Z) : sctx :=
  {| c_msg := true; c_type := 1; c_start := start; c_size := size; c_pktseq := false; c_orig := false; c_alen := 4; c_hl := false; c_hc := false; c_seq := false |}.

(** False of the code: one packet stops the daemon for ever. *)
Theorem C113_hang_refuted : exists pkt start size ts tlvs p m',
  parse_tlvblock (fun _ => true) pkt (start + 4) (start + size) 0 {| m_n := 0; m_tlv := 0; m_addr := 0 |} = Ok (OKAY, p, tlvs, m') /\
  ts = received pkt tlvs /\
  forall sign addr gs, zlen addr <= 16 -> existsb (fun g => g_match g 1) gs = true ->
  forall fuel, cb_signature_tlv sign fuel pkt addr (plain_ctx start size) gs ts = SBad S_fuel.
Proof.
  exists hang, 1, 22. eexists. eexists. eexists. eexists.
  split; [vm_compute; reflexivity|]. split; [vm_compute; reflexivity|].
  intros sign addr gs LA EX fuel. unfold cb_signature_tlv. cbn [plain_ctx c_msg c_type]. rewrite EX. cbn [negb check_tlvs].
  unfold check_tlv. cbn [i_ext i_val]. change (negb (1 =? EXT_CRYPTHASH) && negb (1 =? EXT_SRCSPEC)) with false. cbn iota.
  change (zlen [0; 0; 0; 170] <? 4) with false. change (zlen [0; 0; 0; 170] <=? 3 + 0) with false. cbv zeta.
  change (1 =? EXT_SRCSPEC) with false. change (firstn (Z.to_nat 0) [170]) with (@nil Z). cbn [app].
  change (sput 0 [0; 0; 0]) with (SOk [0; 0; 0]). cbn [sbind].
  assert (forall k used bl, rm_loop hang k used 17 6 bl [7; 0x40] = SBad S_fuel) as LOOP.
  { induction k as [|k IH]; intros used bl; [reflexivity|]. cbn [rm_loop]. change (6 =? 0) with false. cbn iota.
    change (rm_tlvlen hang 17) with (@SOk Z 0). cbn [sbind]. change (sget hang 17) with (@SOk Z 5). cbn [sbind].
    change (5 =? ICV) with true. cbn [negb]. change (17 + 0) with 17. change (u16 (6 - 0)) with 6. apply IH. }
  assert (remove_signature_data hang fuel (zlen [0; 0; 0]) (plain_ctx 1 22) = SBad S_fuel) as RM.
  { unfold remove_signature_data. change (hdr_of (plain_ctx 1 22)) with (4, 0, 0). cbn iota. cbn [plain_ctx c_start c_msg c_size].
    change (scopy hang 1 4) with (SOk [1; 3; 0; 22]). cbn [sbind].
    change (sput (zlen [0; 0; 0]) [1; 3; 0; 22]) with (SOk [1; 3; 0; 22]). cbn [sbind]. cbv zeta.
    change (sget hang (1 + 4)) with (@SOk Z 0). cbn [sbind]. change (sget hang (1 + 4 + 1)) with (@SOk Z 16). cbn [sbind].
    change (u16 (256 * 0 + 16)) with 16. change (1 + 4 + 2) with 7. change (zlen [0; 0; 0] + 4 + 2) with 9.
    destruct fuel as [|k]; [reflexivity|]. cbn [rm_loop]. change (16 =? 0) with false. cbn iota.
    change (rm_tlvlen hang 7) with (@SOk Z 8). cbn [sbind]. change (sget hang 7) with (@SOk Z 5). cbn [sbind]. change (5 =? ICV) with true. cbn [negb].
    change (7 + 8) with 15. change (u16 (16 - 8)) with 8.
    destruct k as [|k]; [reflexivity|]. cbn [rm_loop]. change (8 =? 0) with false. cbn iota.
    change (rm_tlvlen hang 15) with (@SOk Z 2). cbn [sbind]. change (sget hang 15) with (@SOk Z 7). cbn [sbind]. change (7 =? ICV) with false. cbn [negb].
    change (scopy hang 15 2) with (SOk [7; 0x40]). cbn [sbind]. change (sput (9 + zlen []) [7; 0x40]) with (SOk [7; 0x40]). cbn [sbind].
    change (15 + 2) with 17. change (u16 (8 - 2)) with 6. cbn [app]. rewrite LOOP. reflexivity. }
  change {| c_msg := true; c_type := 1; c_start := 1; c_size := 22; c_pktseq := false; c_orig := false; c_alen := 4; c_hl := false; c_hc := false; c_seq := false |} with (plain_ctx 1 22).
  rewrite RM. reflexivity.
Qed.

(** False of the code: reading behind the received data. *)
Definition astray : bytes := [0; 1; 3; 0; 17; 0; 11; 5; 0x90; 1; 4; 0; 0; 0; 0xaa; 7; 0x40; 5].
Theorem C113_read_refuted : exists pkt start size ts tlvs p m',
  start + size = zlen pkt /\
  parse_tlvblock (fun _ => true) pkt (start + 4) (start + size) 0 {| m_n := 0; m_tlv := 0; m_addr := 0 |} = Ok (OKAY, p, tlvs, m') /\
  ts = received pkt tlvs /\
  forall sign addr gs, existsb (fun g => g_match g 1) gs = true ->
    cb_signature_tlv sign 100 pkt addr (plain_ctx start size) gs ts = SBad (S_read (zlen pkt)).
Proof.
  exists astray, 1, 17. eexists. eexists. eexists. eexists. split; [reflexivity|]. split; [vm_compute; reflexivity|]. split; [vm_compute; reflexivity|].
  intros sign addr gs EX. unfold cb_signature_tlv. cbn [plain_ctx c_msg c_type]. rewrite EX. cbn [negb check_tlvs].
  unfold check_tlv. cbn [i_ext i_val]. change (negb (1 =? EXT_CRYPTHASH) && negb (1 =? EXT_SRCSPEC)) with false. cbn iota.
  change (zlen [0; 0; 0; 170] <? 4) with false. change (zlen [0; 0; 0; 170] <=? 3 + 0) with false. cbv zeta.
  change (1 =? EXT_SRCSPEC) with false. change (firstn (Z.to_nat 0) [170]) with (@nil Z). cbn [app].
  change (sput 0 [0; 0; 0]) with (SOk [0; 0; 0]). cbn [sbind].
  assert (remove_signature_data astray 100 (zlen [0; 0; 0]) (plain_ctx 1 17) = SBad (S_read (zlen astray))) as RM by (vm_compute; reflexivity).
  rewrite RM. reflexivity.
Qed.

(** False of the code: a packet of the largest size and a source specific ICV
    TLV overrun the static buffer, wherever the packet comes from. *)
Definition huge : bytes := [4; 0; 8; 5; 0x90; 2; 4; 0; 0; 0; 0xaa] ++ repeat 0 1461.
Definition huge_ctx : sctx :=
  {| c_msg := false; c_type := 0; c_start := 0; c_size := zlen huge; c_pktseq := false; c_orig := false; c_alen := 0; c_hl := false; c_hc := false; c_seq := false |}.
Theorem C113_overrun_refuted : exists ts tlvs p m',
  zlen huge = STATIC_SIZE /\
  parse_tlvblock (fun _ => true) huge 1 (zlen huge) 0 {| m_n := 0; m_tlv := 0; m_addr := 0 |} = Ok (OKAY, p, tlvs, m') /\ ts = received huge tlvs /\
  forall sign addr gs, zlen addr = 16 -> existsb (fun g => g_match g PKT_TYPE) gs = true ->
    packet_consumer sign true 20 huge addr huge_ctx gs ts = SBad (S_static (STATIC_SIZE + 9)).
Proof.
  eexists. eexists. eexists. eexists. split; [vm_compute; reflexivity|]. split; [vm_compute; reflexivity|]. split; [vm_compute; reflexivity|].
  intros sign addr gs LA EX. unfold packet_consumer, cb_signature_tlv.
  change (c_msg huge_ctx) with false. cbn iota. rewrite EX. cbn [negb check_tlvs].
  unfold check_tlv. cbn [i_ext i_val]. change (negb (2 =? EXT_CRYPTHASH) && negb (2 =? EXT_SRCSPEC)) with false. cbn iota.
  change (zlen [0; 0; 0; 170] <? 4) with false. change (zlen [0; 0; 0; 170] <=? 3 + 0) with false. cbv zeta.
  change (2 =? EXT_SRCSPEC) with true. change (firstn (Z.to_nat 0) [170]) with (@nil Z). cbn [app].
  assert (zlen (addr ++ [0; 0; 0]) = 19) as LF by (rewrite zlen_app, LA; reflexivity).
  destruct (sput_cases 0 (addr ++ [0; 0; 0])) as [->|[_ B]]; [|rewrite LF in B; vm_compute in B; discriminate]. cbn [sbind].
  rewrite LF. 
  assert (remove_signature_data huge 20 19 huge_ctx = SBad (S_static (STATIC_SIZE + 9))) as -> by (vm_compute; reflexivity).
  reflexivity.
Qed.

(** False of the code: a message that leaves the room announced for the
    signature does not fit after signing: only the ICV was announced, not the
    TLV around it. *)
Theorem C113_sender_room_refuted : exists sign ssize g M room,
  wf_msg M /\ wf_sig g /\ g_ready g = true /\ msg_size M + ssize (g_hash g) (g_crypt g) <= room /\
  (forall h c text key s, sign h c text key = Some s -> zlen s <= ssize h c) /\
  exists n, add_signature sign ssize g (Some []) (Some (shape M)) (enc_msg M) room = SBad (S_packet n) /\ room < n.
Proof.
  exists toy, (fun _ _ => 4), key1, hello, (msg_size hello + 4). split; [exact wf_hello|].
  split. { repeat split; try (cbn; lia). unfold all_bytes, is_u8; repeat constructor; lia. }
  split; [reflexivity|]. split; [reflexivity|]. split; [intros h c text key s E; injection E as <-; change (4 <= 4); lia|].
  eexists. split; vm_compute; reflexivity.
Qed.

(** ** C114: several shared keys *)
(** A message signed with one of the configured keys is accepted, if other keys
    that are concerned are optional and use other functions. *)
Theorem C114_keys_partial hash crypt id key msgs packet srcspec drop others mt :
  zlen id < 256 ->
  let g := shared_sig hash crypt id key msgs packet srcspec drop in
  Forall (fun g' => g_match g' mt = false \/ (g_drop g' = false /\ (g_hash g' <> hash \/ g_crypt g' <> crypt))) others ->
  Forall (quiet mt g) (g :: others) /\ (forall got, g_verify g got = IdOkay <-> got = id).
Proof.
  intros L g F. split.
  - constructor.
    + left. repeat split; cbn. unfold shared_verify. now rewrite (proj2 (beqb_eq id id) eq_refl).
    + eapply Forall_impl; [|exact F]. intros g' [A|A]; [right; left; exact A|right; right; exact A].
  - intros got. cbn. unfold shared_verify. destruct (beqb got id) eqn:E; [apply beqb_eq in E; now subst|].
    split; [discriminate|]. intros ->. rewrite (proj2 (beqb_eq id id) eq_refl) in E. discriminate.
Qed.
Example C114_ex : Forall (quiet 1 key1) [key1; shared_sig 4 3 [107; 50] [23; 1] (fun _ => true) true false false].
Proof.
  refine (proj1 (C114_keys_partial 3 3 [107; 49] [17; 1] (fun _ => true) true false true [shared_sig 4 3 [107; 50] [23; 1] (fun _ => true) true false false] 1 _ _)).
  - reflexivity.
  - constructor; [|constructor]. right. split; [reflexivity|]. left. cbn. discriminate.
Qed.

(** False of the code: a router with two keys for the same functions (old and
    new one, while keys are exchanged) throws away everything signed with
    either of them: the key that was not used drops the message. *)
Theorem C114_two_keys_refuted : forall sign hash crypt id1 id2 k1 k2 msgs packet srcspec drop1 drop2 M icv pkt start fuel addr ts,
  id1 <> id2 -> is_u8 hash -> is_u8 crypt -> zlen id1 < 256 -> all_bytes id1 ->
  let g1 := shared_sig hash crypt id1 k1 msgs packet srcspec drop1 in
  let g2 := shared_sig hash crypt id2 k2 msgs packet srcspec drop2 in
  plain (wm_tlvs M) = wm_tlvs M -> msgs (wm_type M) = true -> icv <> [] ->
  let M' := with_tlvs M (sig_tlv g1 icv :: wm_tlvs M) in
  wf_msg M' -> holds pkt start (enc_msg M') -> (length pkt <= fuel)%nat -> delivered (wm_tlvs M') ts ->
  zlen (covered g1 addr id1 (enc_msg (bare_msg M))) <= STATIC_SIZE ->
  genuine sign g1 addr id1 icv (enc_msg (bare_msg M)) ->
  cb_signature_tlv sign fuel pkt addr (msg_ctx start M') [g1; g2] ts = SOk R_DROP_MESSAGE /\
  cb_signature_tlv sign fuel pkt addr (msg_ctx start M') [g2; g1] ts = SOk R_DROP_MESSAGE.
Proof.
  intros sign hash crypt id1 id2 k1 k2 msgs packet srcspec drop1 drop2 M icv pkt start fuel addr ts NI HU CU IL IB g1 g2 P MT NE M' W H F D FIT GEN.
  assert (bare_msg M' = bare_msg M) as BS by (unfold bare_msg, M'; cbn; reflexivity).
  change (wm_tlvs M') with (sig_tlv g1 icv :: wm_tlvs M) in D. rewrite (delivered_one _ _ _ _ P D).
  assert (forall base, 0 <= base -> remove_signature_data pkt fuel base (msg_ctx start M') = SOk (enc_msg (bare_msg M)) \/
     too_big 0 (base + zlen (enc_msg (bare_msg M))) (remove_signature_data pkt fuel base (msg_ctx start M'))) as REM.
  { intros base B. rewrite <- BS. apply remove_msg; auto. }
  assert (wf_sig g1) as WS by (split; [exact HU|split; [exact CU|split; [exact IL|exact IB]]]).
  assert (g_verify g2 (g_keyid g1) = IdDrop) as V.
  { cbn. unfold shared_verify. destruct (beqb id1 id2) eqn:E; [apply beqb_eq in E; contradiction|reflexivity]. }
  assert (is_u8 (wm_type M)) as UT by (destruct W as [W0 _]; exact W0).
  assert (g_match g2 (wm_type M) = true) as GM.
  { cbn. unfold PKT_TYPE. unfold is_u8 in UT. destruct (Z.eqb_spec (wm_type M) (-1)); [lia|exact MT]. }
  split; refine (one_dropped sign pkt fuel (msg_ctx start M') (wm_type M) addr (enc_msg (bare_msg M)) REM g1 icv _ g2 WS NE eq_refl _ _ eq_refl eq_refl eq_refl GM V FIT);
    try (cbn; tauto); repeat constructor.
Qed.
Example C114_two_keys_ex :
  let k2 := shared_sig 3 3 [107; 50] [23; 1] (fun _ => true) true false false in
  let M1 := with_tlvs hello (sig_tlv key1 (toy_icv key1 hello) :: wm_tlvs hello) in
  let ts := [shown_icv (sig_tlv key1 (toy_icv key1 hello))] in
  cb_signature_tlv toy 60 (enc_msg M1) [] (msg_ctx 0 M1) [key1] ts = SOk R_OKAY /\
  cb_signature_tlv toy 60 (enc_msg M1) [] (msg_ctx 0 M1) [key1; k2] ts = SOk R_DROP_MESSAGE.
Proof. split; vm_compute; reflexivity. Qed.

Print Assumptions C111_message_roundtrip_partial.
Print Assumptions C111_packet_roundtrip_partial.
Print Assumptions C111_two_signatures_refuted.
Print Assumptions C112_accepted_message_partial.
Print Assumptions C112_accepted_packet_partial.
Print Assumptions C112_right_length.
Print Assumptions C112_wrong_length_refuted.
Print Assumptions C112_no_tlvblock_refuted.
Print Assumptions C112_reader_skips.
Print Assumptions C113_check_message_partial.
Print Assumptions C113_hang_refuted.
Print Assumptions C113_read_refuted.
Print Assumptions C113_overrun_refuted.
Print Assumptions C113_sender_room_refuted.
Print Assumptions C114_keys_partial.
Print Assumptions C114_two_keys_refuted.
