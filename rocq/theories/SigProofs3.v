(** The checker and the signer. *)
From Verif Require Import Base BitsModel BufLemmas SplitLemmas NetaddrModel ReaderModel ReadDispModel WireSpec WireParse SigModel SigSpec SigProofs SigProofs2.
From Coq Require Import Permutation.

Lemma beqb_eq a : forall b, beqb a b = true <-> a = b.
Proof.
  induction a as [|x a IH]; intros [|y b]; cbn; try (split; congruence).
  rewrite andb_true_iff, Z.eqb_eq, IH. split; [intros [-> ->]; auto|intros E; injection E; auto].
Qed.

Section S.
Context (sign : Z -> Z -> bytes -> bytes -> option bytes).
Context (pkt : bytes) (fuel : nat) (x : sctx) (mt : Z) (addr body : bytes).
Context (REM : forall base, 0 <= base -> remove_signature_data pkt fuel base x = SOk body \/
                            too_big 0 (base + zlen body) (remove_signature_data pkt fuel base x)).

(** TLV [t] made the flag of [g] true *)
Definition okI (g : sig) (t : itlv) : Prop :=
  exists kid icv, i_ext t = sig_ext g /\ i_val t = sig_value g kid icv /\ icv <> [] /\ zlen kid < 256 /\
    g_verify g kid = IdOkay /\ g_match g mt = true /\
    validate_by_sign sign (g_hash g) (g_crypt g) icv (covered g addr kid body) (g_key g) = true.

Lemma try_sound t hash crypt kl rest kid icv text gs : all_bytes (i_val t) ->
  i_val t = hash :: crypt :: kl :: rest -> kid ++ icv = rest -> zlen kid = kl -> icv <> [] ->
  i_ext t = 1 \/ i_ext t = 2 ->
  text = (if i_ext t =? EXT_SRCSPEC then addr else []) ++ [hash; crypt; kl] ++ kid ++ body ->
  forall ver ver', Forall2 (fun g (v : bool) => True) gs ver ->
  try_sigs sign mt t hash crypt kid icv text gs ver = SOk (Some ver') ->
  Forall2 (fun g (p : bool * bool) => snd p = true -> fst p = true \/ okI g t) gs (combine ver ver') /\ length ver' = length gs.
Proof.
  intros AB EV ER EK NE EX ET. induction gs as [|g gs IH]; intros ver ver' F E.
  - inversion F; subst. cbn in E. injection E as <-. split; constructor.
  - inversion F as [|? v ? ver0 _ F']; subst. cbn [try_sigs] in E.
    assert (forall v', sbind (try_sigs sign mt t hash crypt kid icv
        ((if i_ext t =? EXT_SRCSPEC then addr else []) ++ [hash; crypt; zlen kid] ++ kid ++ body) gs ver0)
        (fun r => SOk match r with Some l => Some (v' :: l) | None => None end) = SOk (Some ver') ->
      (v' = true -> v = true \/ okI g t) ->
      Forall2 (fun g (p : bool * bool) => snd p = true -> fst p = true \/ okI g t) (g :: gs) (combine (v :: ver0) ver') /\ length ver' = length (g :: gs)) as K.
    { intros v' Q1 Q2. destruct (try_sigs _ _ _ _ _ _ _ _ gs ver0) as [[l|]|] eqn:ES; cbn [sbind] in Q1; try discriminate.
      injection Q1 as <-. destruct (IH ver0 l F' ES) as [IH1 IH2]. split; [|cbn; lia]. cbn [combine]. constructor; auto. }
    destruct (negb ((g_hash g =? hash) && (g_crypt g =? crypt))) eqn:EQ; [cbn [sbind] in E; exact (K v E ltac:(auto))|].
    destruct (negb (g_match g mt)) eqn:EM; [cbn [sbind] in E; exact (K v E ltac:(auto))|].
    destruct (negb (Bool.eqb (i_ext t =? EXT_SRCSPEC) (g_srcspec g))) eqn:EXT; [cbn [sbind] in E; exact (K v E ltac:(auto))|].
    destruct (g_verify g kid) eqn:EVI; [cbn [sbind] in E; exact (K v E ltac:(auto))|cbn [sbind] in E; discriminate|].
    destruct (negb (g_ready g)); [discriminate|]. cbn [sbind] in E. apply (K _ E). intros VT. right.
    apply negb_false_iff, andb_true_iff in EQ as [Q1 Q2]. apply Z.eqb_eq in Q1, Q2.
    apply negb_false_iff in EM. apply negb_false_iff, Bool.eqb_prop in EXT.
    assert (is_u8 (zlen kid)) as KU.
    { rewrite EV in AB. apply Forall_inv_tail, Forall_inv_tail, Forall_inv in AB. exact AB. }
    exists kid, icv. unfold sig_ext, sig_value, covered, EXT_SRCSPEC in *. rewrite <- EXT, Q1, Q2.
    split; [destruct (Z.eqb_spec (i_ext t) 2); lia|]. split; [exact EV|]. split; [exact NE|]. split; [unfold is_u8 in KU; lia|].
    split; [exact EVI|]. split; [exact EM|]. exact VT.
Qed.

Lemma sput_ok used l l' : sput used l = SOk l' -> l' = l.
Proof. destruct (sput_cases used l) as [->|[-> _]]; congruence. Qed.

Lemma check_tlv_sound t gs ver ver' : all_bytes (i_val t) -> length ver = length gs ->
  check_tlv sign fuel pkt addr x mt gs t ver = SOk (Some ver') ->
  Forall2 (fun g (p : bool * bool) => snd p = true -> fst p = true \/ okI g t) gs (combine ver ver') /\ length ver' = length gs.
Proof.
  intros AB LV E.
  assert (ver' = ver -> Forall2 (fun g (p : bool * bool) => snd p = true -> fst p = true \/ okI g t) gs (combine ver ver') /\ length ver' = length gs) as SAME.
  { intros ->. split; [|exact LV]. clear - LV. revert ver LV. induction gs as [|g gs IH]; intros [|v ver] L; cbn in *; try discriminate; constructor; auto. }
  unfold check_tlv in E.
  destruct (negb (i_ext t =? EXT_CRYPTHASH) && negb (i_ext t =? EXT_SRCSPEC)) eqn:EX; [injection E as <-; auto|].
  destruct (i_val t) as [|hash [|crypt [|kl rest]]] eqn:EV; try (injection E as <-; auto; fail).
  destruct (zlen (hash :: crypt :: kl :: rest) <? 4) eqn:L4; [injection E as <-; auto|].
  destruct (zlen (hash :: crypt :: kl :: rest) <=? 3 + kl) eqn:LK; [injection E as <-; auto|].
  cbv zeta in E. apply Z.ltb_ge in L4. apply Z.leb_gt in LK. rewrite !zlen_cons in *.
  assert (is_u8 kl) as KU by (apply Forall_inv_tail, Forall_inv_tail, Forall_inv in AB; exact AB). unfold is_u8 in KU.
  set (kid := firstn (Z.to_nat kl) rest) in *. set (icv := skipn (Z.to_nat kl) rest) in *.
  assert (kid ++ icv = rest) as ER by apply firstn_skipn.
  assert (zlen kid = kl) as EK by (unfold kid; rewrite zlen_firstn; lia).
  assert (icv <> []) as NE. { intros Z0. assert (zlen icv = 0) by now rewrite Z0. unfold icv in *. rewrite zlen_skipn in *; lia. }
  set (front := (if i_ext t =? EXT_SRCSPEC then addr else []) ++ [hash; crypt; kl] ++ kid) in *.
  destruct (sput 0 front) as [fr|] eqn:ES; [|discriminate]. apply sput_ok in ES as ->. cbn [sbind] in E.
  destruct (REM (zlen front) (zlen_nonneg _)) as [RM|(n & RM & _)]; rewrite RM in E; [|discriminate]. cbn [sbind] in E.
  assert (i_ext t = 1 \/ i_ext t = 2) as EX2.
  { unfold EXT_CRYPTHASH, EXT_SRCSPEC in EX. destruct (Z.eqb_spec (i_ext t) 1), (Z.eqb_spec (i_ext t) 2); cbn in EX; try discriminate; auto. }
  assert (front ++ body = (if i_ext t =? EXT_SRCSPEC then addr else []) ++ [hash; crypt; kl] ++ kid ++ body) as ET.
  { unfold front. rewrite <- !app_assoc. reflexivity. }
  assert (Forall2 (fun (g : sig) (v : bool) => True) gs ver) as FT.
  { clear - LV. revert ver LV. induction gs as [|g gs IH]; intros [|v ver] L; cbn in *; try discriminate; constructor; auto. }
  rewrite <- EV in AB. exact (try_sound t hash crypt kl rest kid icv _ gs AB EV ER EK NE EX2 ET ver ver' FT E).
Qed.

Lemma check_sound ts : forall gs ver ver', Forall (fun t => all_bytes (i_val t)) ts -> length ver = length gs ->
  check_tlvs sign fuel pkt addr x mt gs ts ver = SOk (Some ver') ->
  Forall2 (fun g (p : bool * bool) => snd p = true -> fst p = true \/ exists t, In t ts /\ okI g t) gs (combine ver ver') /\ length ver' = length gs.
Proof.
  induction ts as [|t ts IH]; intros gs ver ver' AB LV E; cbn [check_tlvs] in E.
  - injection E as <-. split; [|exact LV]. clear - LV. revert ver LV. induction gs as [|g gs IH]; intros [|v ver] L; cbn in *; try discriminate; constructor; auto.
  - destruct (check_tlv sign fuel pkt addr x mt gs t ver) as [[v1|]|] eqn:E1; cbn [sbind] in E; try discriminate.
    destruct (check_tlv_sound t gs ver v1 (Forall_inv AB) LV E1) as [A1 A2].
    destruct (IH gs v1 ver' (Forall_inv_tail AB) A2 E) as [B1 B2]. split; [|exact B2].
    clear - A1 A2 B1 B2 LV. revert ver v1 ver' LV A1 A2 B1 B2.
    induction gs as [|g gs IHg]; intros [|v ver] [|w v1] [|z ver'] LV A1 A2 B1 B2; cbn in *; try discriminate; constructor.
    + inversion A1 as [|? ? ? ? P1 P2]; subst. inversion B1 as [|? ? ? ? Q1 Q2]; subst. cbn in *. intros HZ.
      destruct (Q1 HZ) as [HW|(t' & I1 & I2)].
      * destruct (P1 HW) as [HV|HO]; [auto|]. right. exists t. auto.
      * right. exists t'. auto.
    + inversion A1; subst. inversion B1; subst. eapply IHg; eauto.
Qed.

Lemma missing_false gs : forall ver, missing mt gs ver = false -> length ver = length gs ->
  forall g v, In (g, v) (combine gs ver) -> g_drop g = true -> g_match g mt = true -> v = true.
Proof.
  induction gs as [|g0 gs IH]; intros [|v0 ver] M L g v H D Q; cbn in *; try contradiction; try discriminate.
  apply orb_false_iff in M as [M1 M2]. destruct H as [H|H].
  - injection H as -> ->. rewrite D, Q in M1. cbn in M1. destruct v; auto; discriminate.
  - eapply IH; eauto.
Qed.

Theorem accepted_passes ts gs : Forall (fun t => all_bytes (i_val t)) ts -> (if c_msg x then c_type x else PKT_TYPE) = mt ->
  cb_signature_tlv sign fuel pkt addr x gs ts = SOk R_OKAY ->
  forall g, In g gs -> g_drop g = true -> g_match g mt = true -> exists t, In t ts /\ okI g t.
Proof.
  intros AB MT E g IG GD GM. unfold cb_signature_tlv in E. rewrite MT in E.
  destruct (existsb (fun g0 => g_match g0 mt) gs) eqn:EX; cbn [negb] in E.
  2: { exfalso. assert (existsb (fun g0 => g_match g0 mt) gs = true); [|congruence]. apply existsb_exists. eauto. }
  destruct (check_tlvs sign fuel pkt addr x mt gs ts (map (fun _ => false) gs)) as [[ver|]|] eqn:EC; cbn [sbind] in E; try discriminate.
  2: { destruct (c_msg x); discriminate. }
  destruct (missing mt gs ver) eqn:MI. { destruct (c_msg x); discriminate. }
  destruct (check_sound ts gs _ ver AB (map_length _ _) EC) as [CS CL].
  destruct (In_nth_error _ _ IG) as [n Hn].
  assert (exists v, nth_error ver n = Some v) as [v Hv].
  { destruct (nth_error ver n) eqn:Q; eauto. apply nth_error_None in Q. assert (n < length gs)%nat by (apply nth_error_Some; congruence). lia. }
  assert (v = true) as ->.
  { apply (missing_false gs ver MI CL g v); auto. clear - Hn Hv. revert gs ver Hn Hv. induction n; intros [|a gs] [|b ver] Hn Hv; cbn in *; try discriminate.
    - injection Hn as ->. injection Hv as ->. auto.
    - right. eapply IHn; eauto. }
  clear - CS Hn Hv.
  assert (forall k (vs : list bool), nth_error (combine (map (fun _ : sig => false) k) vs) n = match nth_error k n, nth_error vs n with Some _, Some b => Some (false, b) | _, _ => None end) as NC.
  { clear. induction n; intros [|a k] [|b vs]; cbn; auto. destruct (nth_error k n); auto. }
  pose proof (NC gs ver) as N0. rewrite Hn, Hv in N0.
  assert (forall (P : sig -> bool * bool -> Prop) a b, Forall2 P a b -> forall m y z, nth_error a m = Some y -> nth_error b m = Some z -> P y z) as FN.
  { clear. intros P a b F. induction F; intros [|m] y0 z0 E1 E2; cbn in *; try discriminate; [congruence|eauto]. }
  destruct (FN _ _ _ CS n g _ Hn N0 eq_refl) as [D|D]; [discriminate|exact D].
Qed.

(** completeness for one TLV *)
Definition same_key (g g' : sig) : Prop :=
  g_hash g' = g_hash g /\ g_crypt g' = g_crypt g /\ g_key g' = g_key g /\ g_srcspec g' = g_srcspec g /\
  g_verify g' (g_keyid g) = IdOkay /\ g_ready g' = true.

(** [g'] does not stand in the way of an ICV of [g] *)
Definition quiet (g g' : sig) : Prop :=
  same_key g g' \/ g_match g' mt = false \/ (g_drop g' = false /\ (g_hash g' <> g_hash g \/ g_crypt g' <> g_crypt g)).

Lemma try_complete g icv text gs t : (i_ext t =? EXT_SRCSPEC) = g_srcspec g ->
  validate_by_sign sign (g_hash g) (g_crypt g) icv text (g_key g) = true ->
  Forall (quiet g) gs -> forall ver, length ver = length gs ->
  exists ver', try_sigs sign mt t (g_hash g) (g_crypt g) (g_keyid g) icv text gs ver = SOk (Some ver') /\ missing mt gs ver' = false.
Proof.
  intros EX V F. induction F as [|g' gs [A|[A|[A B]]] F IH]; intros [|v ver] L; cbn in L; try discriminate.
  - exists []. cbn. auto.
  - destruct (IH ver ltac:(lia)) as (l & I1 & I2). destruct A as (A1 & A2 & A3 & A4 & A5 & A6).
    cbn [try_sigs]. rewrite A1, A2, !Z.eqb_refl. cbn [andb negb]. destruct (g_match g' mt) eqn:GM; cbn [negb sbind].
    + rewrite EX, A4, Bool.eqb_reflx. cbn [negb]. rewrite A5, A6. cbn [negb sbind]. rewrite A3, V, I1. cbn [sbind].
      eexists. split; [reflexivity|]. cbn [missing negb andb orb]. exact I2.
    + rewrite I1. cbn [sbind]. eexists. split; [reflexivity|]. cbn [missing]. rewrite GM, I2, !andb_false_r. reflexivity.
  - destruct (IH ver ltac:(lia)) as (l & I1 & I2).
    cbn [try_sigs]. rewrite A. cbn [negb]. destruct (negb ((g_hash g' =? g_hash g) && (g_crypt g' =? g_crypt g))); cbn [sbind]; rewrite I1; cbn [sbind];
      (eexists; split; [reflexivity|]; cbn [missing]; rewrite A, I2, !andb_false_r; reflexivity).
  - destruct (IH ver ltac:(lia)) as (l & I1 & I2).
    assert (negb ((g_hash g' =? g_hash g) && (g_crypt g' =? g_crypt g)) = true) as EQ.
    { destruct (Z.eqb_spec (g_hash g') (g_hash g)), (Z.eqb_spec (g_crypt g') (g_crypt g)); cbn; auto. destruct B; contradiction. }
    cbn [try_sigs]. rewrite EQ. cbn [sbind]. rewrite I1. cbn [sbind]. eexists; split; [reflexivity|]. cbn [missing]. rewrite A, I2, andb_false_r. reflexivity.
Qed.

Lemma try_drop g icv text gs t g1 : (i_ext t =? EXT_SRCSPEC) = g_srcspec g1 ->
  g_hash g1 = g_hash g -> g_crypt g1 = g_crypt g -> g_match g1 mt = true -> g_verify g1 (g_keyid g) = IdDrop ->
  In g1 gs -> Forall (fun g' => g_ready g' = true) gs -> forall ver, length ver = length gs ->
  try_sigs sign mt t (g_hash g) (g_crypt g) (g_keyid g) icv text gs ver = SOk None.
Proof.
  intros EX E1 E2 M V I0 R. induction gs as [|g' gs IH]; intros [|v ver] L; cbn in L; try discriminate; [contradiction|].
  cbn [try_sigs]. destruct I0 as [->|I0].
  - rewrite E1, E2, !Z.eqb_refl, M, EX, Bool.eqb_reflx. cbn [andb negb]. rewrite V. reflexivity.
  - specialize (IH I0 (Forall_inv_tail R) ver ltac:(lia)). pose proof (Forall_inv R) as R0. cbn in R0.
    assert (forall v', sbind (try_sigs sign mt t (g_hash g) (g_crypt g) (g_keyid g) icv text gs ver) (fun r => SOk match r with Some l => Some (v' :: l) | None => None end) = SOk (@None (list bool))) as K
      by (intros v'; rewrite IH; reflexivity).
    destruct (negb ((g_hash g' =? g_hash g) && (g_crypt g' =? g_crypt g))); [exact (K v)|].
    destruct (negb (g_match g' mt)); [exact (K v)|]. destruct (negb (Bool.eqb (i_ext t =? EXT_SRCSPEC) (g_srcspec g'))); [exact (K v)|].
    destruct (g_verify g' (g_keyid g)); [exact (K v)|reflexivity|]. rewrite R0. cbn [negb sbind]. apply K.
Qed.

(** the callback reduces to the loop over the signatures *)
Lemma one_tlv g icv gs : wf_sig g -> icv <> [] -> zlen (covered g addr (g_keyid g) body) <= STATIC_SIZE -> forall ver,
  check_tlvs sign fuel pkt addr x mt gs [shown_icv (sig_tlv g icv)] ver =
  sbind (try_sigs sign mt (shown_icv (sig_tlv g icv)) (g_hash g) (g_crypt g) (g_keyid g) icv (covered g addr (g_keyid g) body) gs ver) (fun r => SOk r).
Proof.
  intros (W1 & W2 & W3 & W4) NE FIT ver.
  cbn [check_tlvs]. unfold check_tlv, shown_icv, sig_tlv. cbn [w_ext w_value value_bytes i_ext i_val].
  assert (negb (sig_ext g =? EXT_CRYPTHASH) && negb (sig_ext g =? EXT_SRCSPEC) = false) as ->.
  { unfold sig_ext. destruct (g_srcspec g); reflexivity. }
  unfold sig_value. cbn [app]. rewrite !zlen_cons, zlen_app. pose proof (zlen_nonneg (g_keyid g)) as KN.
  assert (0 < zlen icv). { destruct icv; [congruence|]. rewrite zlen_cons. pose proof (zlen_nonneg icv). lia. }
  destruct (Z.ltb_spec (zlen (g_keyid g) + zlen icv + 1 + 1 + 1) 4); [lia|].
  destruct (Z.leb_spec (zlen (g_keyid g) + zlen icv + 1 + 1 + 1) (3 + zlen (g_keyid g))); [lia|].
  cbv zeta.
  replace (firstn (Z.to_nat (zlen (g_keyid g))) (g_keyid g ++ icv)) with (g_keyid g).
  2: { unfold zlen. rewrite Nat2Z.id. now rewrite firstn_app, Nat.sub_diag, firstn_all, firstn_O, app_nil_r. }
  replace (skipn (Z.to_nat (zlen (g_keyid g))) (g_keyid g ++ icv)) with icv.
  2: { unfold zlen. rewrite Nat2Z.id. now rewrite skipn_app, Nat.sub_diag, skipn_all, skipn_O. }
  assert ((sig_ext g =? EXT_SRCSPEC) = g_srcspec g) as EXT by (unfold sig_ext; destruct (g_srcspec g); reflexivity).
  rewrite EXT. set (front := (if g_srcspec g then addr else []) ++ g_hash g :: g_crypt g :: zlen (g_keyid g) :: g_keyid g).
  assert (covered g addr (g_keyid g) body = front ++ body) as CE.
  { unfold covered, front. rewrite <- !app_assoc. reflexivity. }
  rewrite CE, zlen_app in FIT. pose proof (zlen_nonneg body) as BN.
  destruct (sput_cases 0 front) as [->|[_ B]]; [|lia]. cbn [sbind].
  destruct (REM (zlen front) (zlen_nonneg _)) as [->|(n & _ & N1 & N2)]; [|lia]. cbn [sbind].
  rewrite <- CE. destruct (try_sigs _ _ _ _ _ _ _ _ _ _) as [[?|]|]; reflexivity.
Qed.

Theorem one_accepted g icv gs : wf_sig g -> icv <> [] -> (if c_msg x then c_type x else PKT_TYPE) = mt ->
  Forall (quiet g) gs ->
  zlen (covered g addr (g_keyid g) body) <= STATIC_SIZE ->
  validate_by_sign sign (g_hash g) (g_crypt g) icv (covered g addr (g_keyid g) body) (g_key g) = true ->
  cb_signature_tlv sign fuel pkt addr x gs [shown_icv (sig_tlv g icv)] = SOk R_OKAY.
Proof.
  intros W NE MT F FIT V. unfold cb_signature_tlv. rewrite MT. destruct (negb _); [reflexivity|].
  rewrite (one_tlv g icv gs W NE FIT).
  assert ((i_ext (shown_icv (sig_tlv g icv)) =? EXT_SRCSPEC) = g_srcspec g) as EXT.
  { cbn [shown_icv sig_tlv w_ext i_ext]. unfold sig_ext; destruct (g_srcspec g); reflexivity. }
  destruct (try_complete g icv _ gs (shown_icv (sig_tlv g icv)) EXT V F (map (fun _ => false) gs) (map_length _ _)) as (ver & E & M).
  rewrite E. cbn [sbind]. now rewrite M.
Qed.

Theorem one_dropped g icv gs g1 : wf_sig g -> icv <> [] -> (if c_msg x then c_type x else PKT_TYPE) = mt ->
  In g1 gs -> Forall (fun g' => g_ready g' = true) gs ->
  g_srcspec g1 = g_srcspec g -> g_hash g1 = g_hash g -> g_crypt g1 = g_crypt g -> g_match g1 mt = true -> g_verify g1 (g_keyid g) = IdDrop ->
  zlen (covered g addr (g_keyid g) body) <= STATIC_SIZE ->
  cb_signature_tlv sign fuel pkt addr x gs [shown_icv (sig_tlv g icv)] = SOk (if c_msg x then R_DROP_MESSAGE else R_DROP_PACKET).
Proof.
  intros W NE MT I1 R E1 E2 E3 M V FIT. unfold cb_signature_tlv. rewrite MT.
  assert (existsb (fun g0 => g_match g0 mt) gs = true) as -> by (apply existsb_exists; eauto). cbn [negb].
  rewrite (one_tlv g icv gs W NE FIT).
  assert ((i_ext (shown_icv (sig_tlv g icv)) =? EXT_SRCSPEC) = g_srcspec g1) as EXT.
  { rewrite E1. cbn [shown_icv sig_tlv w_ext i_ext]. unfold sig_ext; destruct (g_srcspec g); reflexivity. }
  rewrite (try_drop g icv _ gs _ g1 EXT E2 E3 M V I1 R _ (map_length _ _)). reflexivity.
Qed.

Lemma genuine_validates g icv : genuine sign g addr (g_keyid g) icv body ->
  validate_by_sign sign (g_hash g) (g_crypt g) icv (covered g addr (g_keyid g) body) (g_key g) = true.
Proof. intros GEN. unfold validate_by_sign. rewrite GEN. rewrite Z.eqb_refl. cbn. now apply beqb_eq. Qed.

(** no faults *)
Lemma check_safe gs ts : Forall (fun g => g_ready g = true) gs -> Forall (fun t => all_bytes (i_val t)) ts ->
  zlen addr + 258 + zlen body <= STATIC_SIZE -> forall ver, exists r, check_tlvs sign fuel pkt addr x mt gs ts ver = SOk r.
Proof.
  intros R AB FIT. induction AB as [|t ts B0 AB IH]; intros ver; [cbn; eauto|].
  cbn [check_tlvs].
  assert (exists r, check_tlv sign fuel pkt addr x mt gs t ver = SOk r) as [r ->].
  { unfold check_tlv. destruct (_ && _); [eauto|]. destruct (i_val t) as [|hash [|crypt [|kl rest]]]; eauto.
    destruct (_ <? 4); [eauto|]. destruct (zlen (hash :: crypt :: kl :: rest) <=? 3 + kl) eqn:LK; [eauto|]. cbv zeta.
    apply Z.leb_gt in LK. rewrite !zlen_cons in LK.
    assert (is_u8 kl) as KU by (apply Forall_inv_tail, Forall_inv_tail, Forall_inv in B0; exact B0). unfold is_u8 in KU.
    set (front := _ ++ [hash; crypt; kl] ++ _).
    assert (zlen front <= zlen addr + 258) as FL.
    { unfold front. rewrite zlen_app. cbn [app]. rewrite !zlen_cons, zlen_firstn by lia.
      destruct (i_ext t =? EXT_SRCSPEC); [|change (zlen (@nil Z)) with 0; pose proof (zlen_nonneg addr)]; lia. }
    pose proof (zlen_nonneg body). pose proof (zlen_nonneg front).
    destruct (sput_cases 0 front) as [->|[_ B]]; [|lia]. cbn [sbind].
    destruct (REM (zlen front) (zlen_nonneg _)) as [->|(n & _ & N1 & N2)]; [|lia]. cbn [sbind].
    clear - R. set (kid := firstn _ _). set (icv := skipn _ _). set (text := front ++ body). clearbody kid icv text.
    revert ver. induction R as [|g gs R0 R IH]; intros [|v ver]; cbn [try_sigs]; eauto.
    assert (forall v', exists r, sbind (try_sigs sign mt t hash crypt kid icv text gs ver) (fun r => SOk match r with Some l => Some (v' :: l) | None => None end) = SOk r) as K.
    { intros v'. destruct (IH ver) as [r ->]. cbn. eauto. }
    rewrite R0. cbn [negb].
    destruct (negb ((g_hash g =? hash) && (g_crypt g =? crypt))); [exact (K v)|].
    destruct (negb (g_match g mt)); [exact (K v)|]. destruct (negb (Bool.eqb (i_ext t =? EXT_SRCSPEC) (g_srcspec g))); [exact (K v)|].
    destruct (g_verify g kid); [exact (K v)|cbn; eauto|]. cbn [sbind]. apply K. }
  cbn [sbind]. destruct r; eauto.
Qed.
End S.
