(** What the signer makes of an encoded message or packet. *)
From Verif Require Import Base BitsModel BufLemmas SplitLemmas NetaddrModel ReaderModel ReadDispModel WireSpec WireParse SigModel SigSpec SigProofs SigProofs2 SigProofs3.

Lemma be16_u n : is_u16 n -> [u8 (n / 256); Z.land n 255] = be16 n.
Proof.
  intros N. unfold is_u16 in N. unfold be16. change 255 with (Z.ones 8). rewrite Z.land_ones by lia. unfold u8. rewrite Z.mod_small; [reflexivity|].
  split; [apply Z.div_pos; lia|apply Z.div_lt_upper_bound; lia].
Qed.

Definition tlv_of (g : sig) (icv : bytes) : bytes :=
  let value := [g_hash g; g_crypt g; u8 (zlen (g_keyid g))] ++ g_keyid g ++ icv in
  let sz := zlen value in
  let long := sz >? 255 in
  [ICV; if long then 0x98 else 0x90; if g_srcspec g then EXT_SRCSPEC else EXT_CRYPTHASH]
  ++ (if long then [u8 (sz / 256); Z.land sz 255] else [sz]) ++ value.

Lemma kid_u8 g : wf_sig g -> u8 (zlen (g_keyid g)) = zlen (g_keyid g).
Proof. intros (_ & _ & W & _). pose proof (zlen_nonneg (g_keyid g)). unfold u8. rewrite Z.mod_small; lia. Qed.

Lemma tlv_of_enc g icv : wf_sig g -> zlen (sig_value g (g_keyid g) icv) < 65536 -> tlv_of g icv = enc_tlv (sig_tlv g icv).
Proof.
  intros W L. unfold tlv_of. rewrite (kid_u8 g W).
  change ([g_hash g; g_crypt g; zlen (g_keyid g)] ++ g_keyid g ++ icv) with (sig_value g (g_keyid g) icv).
  set (v := sig_value g (g_keyid g) icv) in *. cbv zeta.
  assert (is_u16 (zlen v)) as N by (unfold is_u16; pose proof (zlen_nonneg v); lia).
  rewrite (be16_u _ N). unfold sig_tlv, enc_tlv, tlv_flags. cbn [w_type w_ext w_index w_long w_value w_multi has opt1]. fold v.
  unfold ICV, EXT_SRCSPEC, EXT_CRYPTHASH, sig_ext. destruct (zlen v >? 255), (g_srcspec g); reflexivity.
Qed.

Section A.
Context (sign : Z -> Z -> bytes -> bytes -> option bytes).

Definition addr_of (g : sig) (src : bytes) : bytes := if g_srcspec g then src else [].

Lemma covered_addr g src kid body : covered g src kid body = (addr_of g src ++ [g_hash g; g_crypt g; zlen kid] ++ kid) ++ body.
Proof. unfold covered, addr_of. now rewrite <- !app_assoc. Qed.

Lemma holds_self l : holds l 0 l. Proof. exists [], []. rewrite app_nil_r. auto. Qed.

Lemma sig_value_short g icv ws : zlen (flat_map enc_tlv (sig_tlv g icv :: ws)) < 65536 -> zlen (sig_value g (g_keyid g) icv) < 65536.
Proof.
  intros H. cbn [flat_map] in H. rewrite zlen_app in H.
  set (v := sig_value g (g_keyid g) icv).
  assert (exists h, enc_tlv (sig_tlv g icv) = h ++ v) as [h E].
  { unfold enc_tlv, sig_tlv. cbn [w_type w_ext w_index w_long w_value w_multi opt1]. fold v. rewrite !app_assoc. eexists. reflexivity. }
  rewrite E, zlen_app in H. pose proof (zlen_nonneg h). pose proof (zlen_nonneg (flat_map enc_tlv ws)). lia.
Qed.

Theorem add_msg ssize g src M icv room :
  wf_msg M -> wf_sig g -> g_ready g = true ->
  zlen (covered g src (g_keyid g) (enc_msg (zero_hops M))) <= STATIC_SIZE ->
  genuine sign g src (g_keyid g) icv (enc_msg (zero_hops M)) -> zlen icv <= ssize (g_hash g) (g_crypt g) ->
  msg_size (with_tlvs M (sig_tlv g icv :: wm_tlvs M)) <= room -> room < 65536 ->
  add_signature sign ssize g (Some src) (Some (shape M)) (enc_msg M) room =
    SOk (Some (covered g src (g_keyid g) (enc_msg (zero_hops M)), enc_msg (with_tlvs M (sig_tlv g icv :: wm_tlvs M)))).
Proof.
  intros W WS R FIT GEN LI FR LR.
  destruct (hdr_len (wm_orig M) (wm_hoplimit M) (wm_hopcount M) (wm_seqno M)) as [[len hl] hc] eqn:EH.
  destruct (zero_hdr M (msg_size M) len hl hc EH) as [EL EZ].
  pose proof (hdr_of_msg 0 M W) as HX. rewrite EH in HX.
  set (H := msg_hdr M (msg_size M)) in *. set (T := flat_map enc_tlv (wm_tlvs M)). set (B := flat_map enc_block (wm_blocks M)).
  assert (enc_msg M = H ++ be16 (zlen T) ++ T ++ B) as EM.
  { rewrite enc_msg_parts. unfold enc_tlvs. fold T B H. now rewrite <- !app_assoc. }
  assert (msg_size (zero_hops M) = msg_size M) as SZ by (unfold msg_size; now rewrite zero_hops_rest).
  assert (enc_msg (zero_hops M) = msg_hdr (zero_hops M) (msg_size M) ++ be16 (zlen T) ++ T ++ B) as EZM.
  { rewrite enc_msg_parts, SZ. unfold enc_tlvs. cbn [zero_hops wm_tlvs wm_blocks]. fold T B. now rewrite <- !app_assoc. }
  unfold add_signature.
  assert ((if g_srcspec g then Some src else Some []) = Some (addr_of g src)) as -> by (unfold addr_of; destruct (g_srcspec g); reflexivity).
  rewrite (kid_u8 g WS). cbv zeta. rewrite covered_addr in FIT.
  set (front := addr_of g src ++ [g_hash g; g_crypt g; zlen (g_keyid g)] ++ g_keyid g) in *.
  assert (zlen (enc_msg (zero_hops M)) = zlen (enc_msg M)) as LZ by (rewrite !zlen_enc_msg; exact SZ).
  rewrite zlen_app in FIT. pose proof (zlen_nonneg (enc_msg M)) as NM.
  destruct (sput_cases 0 front) as [->|[_ Q]]; [|lia]. cbn [sbind].
  destruct (sput_cases (zlen front) (enc_msg M)) as [->|[_ Q]]; [|lia]. cbn [sbind].
  assert (add_hdr (Some (shape M)) (enc_msg M) = SOk (len, hl, hc)) as ->.
  { unfold add_hdr. unfold hdr_of, msg_ctx in HX. cbn in HX. cbn [shape sm_orig sm_alen sm_hl sm_hc sm_seq]. f_equal. exact HX. }
  cbn [sbind]. rewrite R. cbn [negb].
  assert (zero_at hc (zero_at hl (enc_msg M)) = enc_msg (zero_hops M)) as -> by (rewrite EM, EZ, EZM; reflexivity).
  unfold genuine in GEN. rewrite covered_addr in GEN. fold front in GEN. rewrite GEN.
  destruct (Z.gtb_spec (zlen icv) (ssize (g_hash g) (g_crypt g))); [lia|].
  set (M' := with_tlvs M (sig_tlv g icv :: wm_tlvs M)) in *.
  assert (forall n, msg_hdr M' n = msg_hdr M n) as HM by reflexivity.
  pose proof (msg_size_parts M' (msg_size M)) as MS. rewrite HM in MS. fold H in MS. unfold M' in MS at 2 3. cbn [with_tlvs wm_tlvs wm_blocks] in MS.
  unfold enc_tlvs in MS. rewrite zlen_app, be16_len in MS. fold B in MS.
  pose proof (zlen_nonneg H) as NH. pose proof (zlen_nonneg B) as NB. pose proof (zlen_nonneg T) as NT.
  assert (zlen (flat_map enc_tlv (sig_tlv g icv :: wm_tlvs M)) < 65536) as TL by lia.
  pose proof (sig_value_short _ _ _ TL) as VL.
  assert (forall a, (ICV :: a) = [ICV] ++ a) as _ by reflexivity.
  pose proof (tlv_of_enc g icv WS VL) as TE. unfold tlv_of in TE. rewrite (kid_u8 g WS) in TE. cbv zeta in TE. rewrite TE.
  pose proof (holds_self (enc_msg M)) as HS. rewrite EM in HS at 2. destruct (holds_app _ _ _ _ HS) as [HS1 HS2]. fold H in HS2.
  pose proof HS2 as HS2b. cbn [app be16] in HS2b. rewrite Z.add_0_l in HS2, HS2b.
  destruct (holds_app _ _ _ _ HS2) as [_ HS3]. rewrite be16_len in HS3.
  rewrite (scopy_holds _ _ H len HS1 EL). cbn [sbind].
  destruct (msg_hdr_size M (msg_size M) (msg_size M')) as (r & R1 & R2). fold H in R1.
  assert (sget (enc_msg M) 0 = SOk (wm_type M)) as ->.
  { pose proof HS1 as HS1'. rewrite R1 in HS1'. exact (sget_holds _ _ _ _ HS1'). }
  cbn [sbind]. rewrite EL.
  rewrite (sget_holds _ _ _ _ HS2b). cbn [sbind].
  destruct (holds_cons _ _ _ _ HS2b) as [_ HS2c]. rewrite (sget_holds _ _ _ _ HS2c). cbn [sbind].
  assert (zlen (enc_msg M) - (zlen H + 2) = zlen (T ++ B)) as ER.
  { rewrite EM, !zlen_app, be16_len. lia. }
  rewrite (scopy_holds _ _ (T ++ B) _ HS3 ER). cbn [sbind].
  replace (256 * (zlen T / 256) + zlen T mod 256) with (zlen T) by (pose proof (Z.div_mod (zlen T) 256 ltac:(lia)); lia).
  replace (zlen T + zlen (enc_tlv (sig_tlv g icv))) with (zlen (flat_map enc_tlv (sig_tlv g icv :: wm_tlvs M))) by (cbn [flat_map]; rewrite zlen_app; fold T; lia).
  set (N := zlen (flat_map enc_tlv (sig_tlv g icv :: wm_tlvs M))) in *.
  rewrite (be16_u N) by (split; [apply zlen_nonneg|exact TL]).
  assert (enc_tlv (sig_tlv g icv) ++ T ++ B = flat_map enc_tlv (sig_tlv g icv :: wm_tlvs M) ++ B) as TB by (cbn [flat_map]; fold T; now rewrite <- app_assoc).
  rewrite TB. set (rest := be16 N ++ flat_map enc_tlv (sig_tlv g icv :: wm_tlvs M) ++ B).
  assert (zlen (H ++ rest) = msg_size M') as SO by (rewrite MS; unfold rest; rewrite !zlen_app, be16_len; fold N; lia).
  rewrite SO. destruct (Z.gtb_spec (msg_size M') room); [lia|].
  assert (is_u16 (msg_size M')) as U by (unfold is_u16; pose proof (zlen_nonneg (H ++ rest)) as NR; rewrite SO in NR; clear - NR LR FR; lia).
  replace (u8 (msg_size M' / 256)) with (msg_size M' / 256).
  2: { unfold u8, is_u16 in *. rewrite Z.mod_small; [reflexivity|]. split; [apply Z.div_pos; lia|apply Z.div_lt_upper_bound; lia]. }
  rewrite R1. cbn [app]. destruct (set_size (wm_type M) (msg_flags M + (wm_addrlen M - 1)) (msg_size M / 256) (msg_size M mod 256) (r ++ rest) _ U) as [-> ->].
  apply f_equal. apply f_equal. apply f_equal2; [now rewrite covered_addr|].
  rewrite enc_msg_parts, HM, R2. reflexivity.
Qed.

Theorem add_pkt ssize g src p icv room :
  wf_pkt p -> wf_sig g -> g_ready g = true ->
  zlen (covered g src (g_keyid g) (enc_pkt p)) <= STATIC_SIZE ->
  genuine sign g src (g_keyid g) icv (enc_pkt p) -> zlen icv <= ssize (g_hash g) (g_crypt g) ->
  let p' := {| wp_seqno := wp_seqno p; wp_tlvs := Some (sig_tlv g icv :: tlvs_of p); wp_msgs := wp_msgs p |} in
  zlen (enc_pkt p') <= room -> room < 65536 ->
  add_signature sign ssize g (Some src) None (enc_pkt p) room = SOk (Some (covered g src (g_keyid g) (enc_pkt p), enc_pkt p')).
Proof.
  intros W WS R FIT GEN LI p' FR LR.
  set (H := pkt_hdr (wp_seqno p) (isS (wp_tlvs p))). set (B := flat_map enc_msg (wp_msgs p)). set (T := flat_map enc_tlv (tlvs_of p)).
  assert (enc_pkt p = H ++ (match wp_tlvs p with Some _ => be16 (zlen T) ++ T | None => [] end) ++ B) as EM.
  { unfold enc_pkt, H, pkt_hdr, T, tlvs_of, B. destruct (wp_tlvs p); cbn [isS has]; rewrite <- !app_assoc; reflexivity. }
  assert (enc_pkt p' = pkt_hdr (wp_seqno p) true ++ (be16 (zlen (flat_map enc_tlv (sig_tlv g icv :: tlvs_of p))) ++ flat_map enc_tlv (sig_tlv g icv :: tlvs_of p)) ++ B) as EM'.
  { rewrite (enc_pkt_parts p' (sig_tlv g icv :: tlvs_of p) eq_refl). reflexivity. }
  unfold add_signature.
  assert ((if g_srcspec g then Some src else Some []) = Some (addr_of g src)) as -> by (unfold addr_of; destruct (g_srcspec g); reflexivity).
  rewrite (kid_u8 g WS). cbv zeta. rewrite covered_addr in FIT.
  set (front := addr_of g src ++ [g_hash g; g_crypt g; zlen (g_keyid g)] ++ g_keyid g) in *.
  rewrite zlen_app in FIT. pose proof (zlen_nonneg (enc_pkt p)) as NM.
  destruct (sput_cases 0 front) as [->|[_ Q]]; [|lia]. cbn [sbind].
  destruct (sput_cases (zlen front) (enc_pkt p)) as [->|[_ Q]]; [|lia]. cbn [sbind].
  pose proof (holds_self (enc_pkt p)) as HS. rewrite EM in HS at 2.
  set (b0 := has (wp_seqno p) 8 + (if isS (wp_tlvs p) then 4 else 0)).
  assert (exists r, H = b0 :: r) as [r ER] by (unfold H, pkt_hdr; eexists; reflexivity).
  assert (sget (enc_pkt p) 0 = SOk b0) as G0.
  { pose proof HS as HS'. rewrite ER in HS'. exact (sget_holds _ _ _ _ HS'). }
  assert (add_hdr None (enc_pkt p) = SOk (zlen H, 0, 0)) as ->.
  { unfold add_hdr. rewrite G0. cbn [sbind]. unfold b0, H, pkt_hdr. destruct (wp_seqno p), (isS (wp_tlvs p)); reflexivity. }
  cbn [sbind]. rewrite R. cbn [negb]. rewrite !zero_at_0.
  unfold genuine in GEN. rewrite covered_addr in GEN. fold front in GEN. rewrite GEN.
  destruct (Z.gtb_spec (zlen icv) (ssize (g_hash g) (g_crypt g))); [lia|].
  set (N := zlen (flat_map enc_tlv (sig_tlv g icv :: tlvs_of p))) in *.
  assert (0 <= N) as NN by apply zlen_nonneg.
  assert (zlen (enc_pkt p') = zlen (pkt_hdr (wp_seqno p) true) + 2 + N + zlen B) as L'.
  { rewrite EM', !zlen_app, be16_len. unfold N. lia. }
  pose proof (zlen_nonneg (pkt_hdr (wp_seqno p) true)) as NH. pose proof (zlen_nonneg B) as NB. pose proof (zlen_nonneg T) as NT.
  assert (N < 65536) as TL by lia.
  pose proof (sig_value_short _ _ _ TL) as VL.
  pose proof (tlv_of_enc g icv WS VL) as TE. unfold tlv_of in TE. rewrite (kid_u8 g WS) in TE. cbv zeta in TE. rewrite TE.
  destruct (holds_app _ _ _ _ HS) as [HS1 HS2]. rewrite Z.add_0_l in HS2.
  rewrite (scopy_holds _ _ H _ HS1 eq_refl). cbn [sbind]. rewrite G0. cbn [sbind].
  assert (bit b0 4 = isS (wp_tlvs p)) as -> by (unfold b0; destruct (wp_seqno p), (isS (wp_tlvs p)); reflexivity).
  assert (zlen T + zlen (enc_tlv (sig_tlv g icv)) = N) as EN by (unfold N; cbn [flat_map]; rewrite zlen_app; unfold T; lia).
  assert (is_u16 N) as NU by (unfold is_u16; lia).
  assert (enc_tlv (sig_tlv g icv) ++ T ++ B = flat_map enc_tlv (sig_tlv g icv :: tlvs_of p) ++ B) as TB by (cbn [flat_map]; fold T; now rewrite <- app_assoc).
  destruct (wp_tlvs p) as [ws|] eqn:ET; cbn [isS negb].
  - cbn [app be16] in HS2. rewrite (sget_holds _ _ _ _ HS2). cbn [sbind].
    destruct (holds_cons _ _ _ _ HS2) as [_ HS3]. rewrite (sget_holds _ _ _ _ HS3). cbn [sbind].
    destruct (holds_cons _ _ _ _ HS3) as [_ HS4]. rewrite <- Z.add_assoc in HS4. change (1 + 1) with 2 in HS4.
    assert (zlen (enc_pkt p) - (zlen H + 2) = zlen (T ++ B)) as ER2 by (rewrite EM, !zlen_app, be16_len; lia).
    rewrite (scopy_holds _ _ (T ++ B) _ HS4 ER2). cbn [sbind].
    replace (256 * (zlen T / 256) + zlen T mod 256) with (zlen T) by (pose proof (Z.div_mod (zlen T) 256 ltac:(lia)); lia).
    rewrite EN, (be16_u N NU), TB.
    assert (H = pkt_hdr (wp_seqno p) true) as HH by reflexivity.
    assert (H ++ be16 N ++ flat_map enc_tlv (sig_tlv g icv :: tlvs_of p) ++ B = enc_pkt p') as -> by (rewrite EM', HH, <- !app_assoc; reflexivity).
    destruct (Z.gtb_spec (zlen (enc_pkt p')) room); [lia|]. now rewrite covered_addr.
  - cbn [app] in HS2.
    assert (zlen (enc_pkt p) - zlen H = zlen B) as ER2 by (rewrite EM, !zlen_app; change (zlen (@nil Z)) with 0; lia).
    rewrite (scopy_holds _ _ B _ HS2 ER2). cbn [sbind].
    assert (T = []) as T0 by (unfold T, tlvs_of; now rewrite ET).
    assert (0 + zlen (enc_tlv (sig_tlv g icv)) = N) as -> by (rewrite <- EN, T0; reflexivity).
    rewrite (be16_u N NU). rewrite T0 in TB. cbn [app] in TB. rewrite TB.
    assert (match H with h :: hs => Z.lor h 4 :: hs | [] => [] end = pkt_hdr (wp_seqno p) true) as ->
      by (unfold H, pkt_hdr; destruct (wp_seqno p); reflexivity).
    assert (pkt_hdr (wp_seqno p) true ++ be16 N ++ flat_map enc_tlv (sig_tlv g icv :: tlvs_of p) ++ B = enc_pkt p') as -> by (rewrite EM', <- !app_assoc; reflexivity).
    destruct (Z.gtb_spec (zlen (enc_pkt p')) room); [lia|]. now rewrite covered_addr.
Qed.
End A.
