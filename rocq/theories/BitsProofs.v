(** Proofs about bitmap256 and bit streams. *)
From Verif Require Import Base BitsModel BitsSpec.

(** * Generic bit facts *)
Lemma testbit_shift1 n k : 0 <= n -> Z.testbit (Z.shiftl 1 n) k = (k =? n).
Proof.
  intros Hn. rewrite Z.shiftl_1_l. destruct (Z.eqb_spec k n) as [->|].
  - now apply Z.pow2_bits_true.
  - apply Z.pow2_bits_false; lia.
Qed.

Lemma land_bit_zero h n : 0 <= n -> (Z.land h (Z.shiftl 1 n) =? 0) = negb (Z.testbit h n).
Proof.
  intros Hn. destruct (Z.testbit h n) eqn:E; cbn [negb].
  - apply Z.eqb_neq. intros H. assert (T : Z.testbit (Z.land h (Z.shiftl 1 n)) n = true).
    { rewrite Z.land_spec, testbit_shift1, E, Z.eqb_refl by assumption. reflexivity. }
    rewrite H, Z.bits_0 in T. discriminate.
  - apply Z.eqb_eq. apply Z.bits_inj'. intros m Hm.
    rewrite Z.land_spec, testbit_shift1, Z.bits_0 by assumption.
    destruct (Z.eqb_spec m n) as [->|]; [now rewrite E|]. apply andb_false_r.
Qed.

Lemma u64_bits z m : 0 <= m < 64 -> Z.testbit (u64 z) m = Z.testbit z m.
Proof. intros. unfold u64. change 18446744073709551616 with (2 ^ 64). apply Z.mod_pow2_bits_low; lia. Qed.
Lemma u64_bits_high z m : 64 <= m -> Z.testbit (u64 z) m = false.
Proof. intros. unfold u64. change 18446744073709551616 with (2 ^ 64). apply Z.mod_pow2_bits_high; lia. Qed.
Lemma u8_bits z m : 0 <= m < 8 -> Z.testbit (u8 z) m = Z.testbit z m.
Proof. intros. unfold u8. change 256 with (2 ^ 8). apply Z.mod_pow2_bits_low; lia. Qed.

Lemma lt_testbit h n m : 0 <= h < 2 ^ n -> 0 <= n <= m -> Z.testbit h m = false.
Proof.
  intros Hh Hm. destruct (Z.eq_dec h 0) as [->|]; [apply Z.bits_0|].
  apply Z.bits_above_log2; [lia|]. apply Z.log2_lt_pow2; [lia|].
  eapply Z.lt_le_trans; [apply Hh|]. apply Z.pow_le_mono_r; lia.
Qed.

Lemma byte_bits_high b m : is_u8 b -> 8 <= m -> Z.testbit b m = false.
Proof. unfold is_u8; intros. apply (lt_testbit b 8); [change (2 ^ 8) with 256|]; lia. Qed.

Lemma land_ones_bits z n m : 0 <= n -> 0 <= m ->
  Z.testbit (Z.land z (Z.ones n)) m = (m <? n) && Z.testbit z m.
Proof.
  intros. rewrite Z.land_spec. destruct (Z.ltb_spec m n).
  - rewrite Z.ones_spec_low by lia. now rewrite andb_true_r.
  - rewrite Z.ones_spec_high by lia. now rewrite andb_false_r.
Qed.

(** * bitmap256 *)

Definition bm_wf (m : bitmap256) : Prop := length m = 4%nat /\ Forall is_u64 m.

Lemma bit_split pos : is_u8 pos -> 0 <= Z.shiftr pos 6 < 4 /\ 0 <= Z.land pos 63 < 64 /\
  pos = 64 * Z.shiftr pos 6 + Z.land pos 63.
Proof.
  unfold is_u8; intros H. rewrite Z.shiftr_div_pow2 by lia. change 63 with (Z.ones 6).
  rewrite Z.land_ones by lia. change (2 ^ 6) with 64. zdm; lia.
Qed.

Lemma u64_shift1 n : 0 <= n < 64 -> u64 (Z.shiftl 1 n) = Z.shiftl 1 n.
Proof.
  intros. rewrite Z.shiftl_1_l. apply u64_id. unfold is_u64. split; [lia|].
  change 18446744073709551616 with (2 ^ 64). apply Z.pow_lt_mono_r; lia.
Qed.

Lemma bm_get_spec m pos : bm_wf m -> is_u8 pos -> exists w,
  zget m (Z.shiftr pos 6) = Some w /\ is_u64 w /\ bm_get m pos = Some (Z.testbit w (Z.land pos 63)).
Proof.
  intros [Hl Hf] Hp. destruct (bit_split pos Hp) as (A & B & C).
  destruct (zget_Some m (Z.shiftr pos 6)) as [w Hw]; [unfold zlen; lia|].
  exists w. split; [assumption|]. split; [eapply Forall_zget; eauto|].
  unfold bm_get. rewrite Hw, u64_shift1, land_bit_zero, negb_involutive by lia. reflexivity.
Qed.

Lemma is_u64_bits z : (forall m, 64 <= m -> Z.testbit z m = false) -> 0 <= z -> is_u64 z.
Proof.
  intros H H0. unfold is_u64.
  assert (E : z = z mod 2 ^ 64).
  { apply Z.bits_inj'. intros m Hm. destruct (Z.lt_ge_cases m 64).
    - now rewrite Z.mod_pow2_bits_low.
    - rewrite Z.mod_pow2_bits_high by lia. apply H; lia. }
  change 18446744073709551616 with (2 ^ 64). rewrite E. apply Z.mod_pos_bound. lia.
Qed.

Lemma u64_high w m : is_u64 w -> 64 <= m -> Z.testbit w m = false.
Proof. unfold is_u64; intros. apply (lt_testbit w 64); [change (2 ^ 64) with 18446744073709551616|]; lia. Qed.

Lemma bm_step_spec m o : bm_wf m -> is_u8 (bm_op_pos o) ->
  exists m', bm_step m o = Some m' /\ bm_wf m' /\
  forall pos, is_u8 pos -> bm_get m' pos =
    if bm_op_pos o =? pos then Some (match o with BmSet _ => true | BmReset _ => false end) else bm_get m pos.
Proof.
  intros Hwf Hp. pose proof Hwf as [Hl Hf].
  destruct (bm_get_spec m _ Hwf Hp) as (w & Hw & Hu & Hg).
  destruct (bit_split _ Hp) as (A & B & C).
  assert (Hset : forall x, exists m', zset m (Z.shiftr (bm_op_pos o) 6) x = Some m').
  { intros x. unfold zset, zlen. rewrite Hl. change (Z.of_nat 4) with 4.
    destruct (Z.leb_spec 0 (Z.shiftr (bm_op_pos o) 6)); [|lia].
    destruct (Z.ltb_spec (Z.shiftr (bm_op_pos o) 6) 4); [|lia]. cbn [andb]; eauto. }
  set (p := bm_op_pos o) in *.
  set (neww := match o with BmSet _ => Z.lor w (u64 (Z.shiftl 1 (Z.land p 63)))
               | BmReset _ => Z.land w (u64 (Z.lnot (u64 (Z.shiftl 1 (Z.land p 63))))) end).
  assert (Hstep : bm_step m o = zset m (Z.shiftr p 6) neww).
  { unfold p, neww. destruct o as [b|b]; cbn [bm_step bm_op_pos] in *; unfold bm_set, bm_reset;
    fold p in Hw; unfold p in Hw; cbn [bm_op_pos] in Hw; rewrite Hw; reflexivity. }
  assert (Hnew : forall k, 0 <= k < 64 -> Z.testbit neww k =
     if k =? Z.land p 63 then (match o with BmSet _ => true | BmReset _ => false end) else Z.testbit w k).
  { intros k Hk. unfold neww. destruct o as [b|b]; rewrite u64_shift1 by lia.
    - rewrite Z.lor_spec, testbit_shift1 by lia. destruct (k =? _); [apply orb_true_r|apply orb_false_r].
    - rewrite Z.land_spec, u64_bits, Z.lnot_spec, testbit_shift1 by lia.
      destruct (k =? _); [apply andb_false_r|apply andb_true_r]. }
  assert (Hnu : is_u64 neww).
  { apply is_u64_bits.
    - intros k Hk. unfold neww. destruct o.
      + now rewrite Z.lor_spec, (u64_high w), u64_bits_high.
      + now rewrite Z.land_spec, (u64_high w).
    - unfold neww. destruct o.
      + apply Z.lor_nonneg. split; [unfold is_u64 in Hu; lia|]. pose proof (u64_range (Z.shiftl 1 (Z.land p 63))). unfold is_u64 in *; lia.
      + apply Z.land_nonneg. left. unfold is_u64 in Hu; lia. }
  destruct (Hset neww) as [m' Hm']. exists m'. split; [rewrite Hstep; exact Hm'|].
  assert (Hwf' : bm_wf m').
  { split. - apply zset_len in Hm'. unfold zlen in Hm'. lia.
    - eapply Forall_zset; eauto. }
  split; [assumption|]. intros pos Hpos.
  destruct (bm_get_spec m' pos Hwf' Hpos) as (w' & Hw' & _ & ->).
  destruct (bit_split _ Hpos) as (A' & B' & C').
  rewrite (zget_zset _ _ _ _ _ Hm') in Hw'.
  destruct (Z.eqb_spec (Z.shiftr pos 6) (Z.shiftr p 6)) as [E|E].
  - injection Hw' as <-. rewrite Hnew by lia.
    destruct (Z.eqb_spec (Z.land pos 63) (Z.land p 63)), (Z.eqb_spec p pos); try lia; [reflexivity|].
    destruct (bm_get_spec m pos Hwf Hpos) as (w2 & Hw2 & _ & ->).
    rewrite E in Hw2. congruence.
  - destruct (Z.eqb_spec p pos) as [->|]; [lia|].
    destruct (bm_get_spec m pos Hwf Hpos) as (w2 & Hw2 & _ & ->). congruence.
Qed.

Lemma bm_run_spec : forall ops m, bm_wf m -> Forall (fun o => is_u8 (bm_op_pos o)) ops ->
  exists m', bm_run m ops = Some m' /\ bm_wf m' /\
  forall pos b, is_u8 pos -> bm_get m pos = Some b -> bm_get m' pos = Some (set_spec ops b pos).
Proof.
  induction ops as [|o ops IH]; intros m Hwf HF; cbn [bm_run set_spec]; [eauto 6|].
  inversion HF as [|? ? Ho HF']; subst.
  destruct (bm_step_spec m o Hwf Ho) as (m1 & E1 & Hwf1 & S1).
  destruct (IH m1 Hwf1 HF') as (m2 & E2 & Hwf2 & S2).
  exists m2. rewrite E1. split; [assumption|]. split; [assumption|].
  intros pos b Hpos Hb. specialize (S1 pos Hpos). rewrite Hb in S1.
  destruct o as [p|p]; cbn [bm_op_pos] in *; apply S2; auto; rewrite S1; now destruct (p =? pos).
Qed.

Definition bm_zero : bitmap256 := [0; 0; 0; 0].
Lemma bm_zero_wf : bm_wf bm_zero.
Proof. split; [reflexivity|]. repeat constructor; unfold is_u64; lia. Qed.
Lemma bm_zero_get pos : is_u8 pos -> bm_get bm_zero pos = Some false.
Proof.
  intros H. destruct (bm_get_spec bm_zero pos bm_zero_wf H) as (w & Hw & _ & ->).
  assert (w = 0). { unfold bm_zero in Hw. apply (Forall_zget (fun x => x = 0)) in Hw; [assumption|repeat constructor]. }
  subst w. now rewrite Z.bits_0.
Qed.

Lemma bm_history ops : Forall (fun o => is_u8 (bm_op_pos o)) ops ->
  exists m', bm_run bm_zero ops = Some m' /\
  forall pos, is_u8 pos -> bm_get m' pos = Some (set_spec ops false pos).
Proof.
  intros H. destruct (bm_run_spec ops bm_zero bm_zero_wf H) as (m' & E & _ & S).
  exists m'. split; [assumption|]. intros pos Hp. apply S; [assumption|]. now apply bm_zero_get.
Qed.

Lemma lor_absorb a b : 0 <= a -> 0 <= b ->
  (a = Z.lor a b <-> forall k, 0 <= k -> Z.testbit b k = true -> Z.testbit a k = true).
Proof.
  intros Ha Hb. split.
  - intros E k Hk Hbk. rewrite E, Z.lor_spec, Hbk. apply orb_true_r.
  - intros H. apply Z.bits_inj'. intros k Hk. rewrite Z.lor_spec.
    destruct (Z.testbit b k) eqn:E; [rewrite H by assumption; reflexivity|]. now rewrite orb_false_r.
Qed.

Lemma bm_is_subset_spec : forall s t, length s = length t -> Forall is_u64 s -> Forall is_u64 t ->
  (bm_is_subset s t = true <->
   forall i a b, zget s i = Some a -> zget t i = Some b -> forall k, 0 <= k -> Z.testbit b k = true -> Z.testbit a k = true).
Proof.
  assert (Z0 : forall A (x : A) l i, zget (x :: l) i = if i =? 0 then Some x else if i <? 0 then None else zget l (i - 1)).
  { intros. unfold zget. destruct (Z.ltb_spec i 0).
    - destruct (Z.eqb_spec i 0); [lia|reflexivity].
    - destruct (Z.eqb_spec i 0) as [->|]; [reflexivity|].
      destruct (Z.ltb_spec (i - 1) 0); [lia|].
      replace (Z.to_nat i) with (S (Z.to_nat (i - 1))) by lia. reflexivity. }
  induction s as [|a s IH]; intros [|b t] Hl Hs Ht; try discriminate; cbn [bm_is_subset].
  - split; [|reflexivity]. intros _ i x y H. unfold zget in H. destruct (i <? 0); [discriminate|].
    destruct (Z.to_nat i); discriminate.
  - inversion Hs; inversion Ht; subst. injection Hl as Hl.
    specialize (IH t Hl ltac:(assumption) ltac:(assumption)).
    pose proof (lor_absorb a b ltac:(unfold is_u64 in *; lia) ltac:(unfold is_u64 in *; lia)) as L.
    destruct (Z.eqb_spec a (Z.lor a b)) as [E|E]; cbn [negb].
    + rewrite IH. split.
      * intros H i x y Hx Hy. rewrite Z0 in Hx, Hy. destruct (i =? 0).
        { injection Hx as <-. injection Hy as <-. now apply L. }
        destruct (i <? 0); [discriminate|]. eauto.
      * intros H i x y Hx Hy. pose proof (zget_bound _ _ _ Hx). apply (H (i + 1)); rewrite Z0;
        destruct (Z.eqb_spec (i + 1) 0); try lia; destruct (Z.ltb_spec (i + 1) 0); try lia;
        now replace (i + 1 - 1) with i by lia.
    + split; [discriminate|]. intros H. exfalso. apply E, L. apply (H 0); reflexivity.
Qed.

(** Set-level meaning of the subset test on 256-bit maps. *)
Lemma bm_subset_set s t : bm_wf s -> bm_wf t ->
  (bm_is_subset s t = true <-> forall pos, is_u8 pos -> bm_get t pos = Some true -> bm_get s pos = Some true).
Proof.
  intros Hs Ht. rewrite bm_is_subset_spec by (destruct Hs, Ht; congruence || assumption).
  split.
  - intros H pos Hp Hg.
    destruct (bm_get_spec s pos Hs Hp) as (a & Ha & _ & ->).
    destruct (bm_get_spec t pos Ht Hp) as (b & Hb & _ & E). rewrite E in Hg. injection Hg as Hg.
    f_equal. eapply H; eauto. destruct (bit_split _ Hp). lia.
  - intros H i a b Ha Hb k Hk Hbk.
    pose proof (zget_bound _ _ _ Ha) as Hi. destruct Hs as [Ls Fs], Ht as [Lt Ft].
    unfold zlen in Hi. rewrite Ls in Hi.
    assert (Hk64 : k < 64).
    { destruct (Z.lt_ge_cases k 64); [assumption|]. rewrite (u64_high b k) in Hbk; [discriminate|eapply Forall_zget; eauto|assumption]. }
    assert (Hp : is_u8 (64 * i + k)) by (unfold is_u8; lia).
    destruct (bit_split _ Hp) as (A & B & C).
    assert (E1 : Z.shiftr (64 * i + k) 6 = i) by lia.
    assert (E2 : Z.land (64 * i + k) 63 = k) by lia.
    destruct (bm_get_spec s _ (conj Ls Fs) Hp) as (a' & Ha' & _ & Hga).
    destruct (bm_get_spec t _ (conj Lt Ft) Hp) as (b' & Hb' & _ & Hgb).
    rewrite E1, ?E2 in *. rewrite Ha in Ha'. rewrite Hb in Hb'. injection Ha' as <-. injection Hb' as <-.
    specialize (H _ Hp). rewrite Hga, Hgb in H. rewrite Hbk in H. specialize (H eq_refl). congruence.
Qed.

(** * Bit streams: the write loop *)

Lemma w_loop_spec : forall size buf offset src,
  0 <= offset -> offset + Z.of_nat size <= zlen buf -> all_bytes buf -> 0 <= src ->
  exists buf', w_loop size buf offset src = Some buf' /\ zlen buf' = zlen buf /\ all_bytes buf' /\
  forall i, 0 <= i < 8 * zlen buf -> bit_at buf' i =
    bit_at buf i || ((8 * offset <=? i) && (i <? 8 * (offset + Z.of_nat size)) &&
                     Z.testbit src (8 * (offset + Z.of_nat size) - 1 - i)).
Proof.
  induction size as [|n IH]; intros buf offset src Ho Hl Hb Hs; cbn [w_loop].
  - exists buf. repeat (split; [auto|]). intros i Hi.
    destruct (Z.leb_spec (8 * offset) i), (Z.ltb_spec i (8 * (offset + Z.of_nat 0))); try lia;
    cbn [andb]; now rewrite orb_false_r.
  - destruct (zget_Some buf (offset + Z.of_nat n)) as [b Eb]; [lia|]. rewrite Eb.
    assert (Hbb : is_u8 b) by (eapply Forall_zget; eauto).
    set (x := u8 (Z.lor b (Z.land src 255))).
    unfold zset at 1. destruct (Z.leb_spec 0 (offset + Z.of_nat n)); [|lia].
    destruct (Z.ltb_spec (offset + Z.of_nat n) (zlen buf)); [|lia]. cbn [andb].
    set (buf1 := set_nth buf (Z.to_nat (offset + Z.of_nat n)) x).
    assert (Ez : zset buf (offset + Z.of_nat n) x = Some buf1).
    { unfold zset. destruct (Z.leb_spec 0 (offset + Z.of_nat n)); [|lia].
      destruct (Z.ltb_spec (offset + Z.of_nat n) (zlen buf)); [|lia]. reflexivity. }
    pose proof (zset_len _ _ _ _ Ez) as L1.
    assert (B1 : all_bytes buf1) by (exact (Forall_zset is_u8 _ _ _ x Hb (u8_range _) Ez)).
    destruct (IH buf1 offset (Z.shiftr src 8)) as (buf2 & E2 & L2 & B2 & S2); auto; try lia.
    { apply Z.shiftr_nonneg. assumption. }
    exists buf2. split; [assumption|]. split; [lia|]. split; [assumption|].
    intros i Hi. rewrite S2 by lia.
    assert (Hbit : bit_at buf1 i = if i / 8 =? offset + Z.of_nat n
        then Z.testbit x (7 - i mod 8) else bit_at buf i).
    { unfold bit_at. rewrite (zget_zset _ _ _ _ _ Ez). now destruct (_ =? _). }
    rewrite Hbit. pose proof (Z.mod_pos_bound i 8 ltac:(lia)) as Hm.
    pose proof (Z.div_mod i 8 ltac:(lia)) as Hdm.
    destruct (Z.eqb_spec (i / 8) (offset + Z.of_nat n)) as [E|E].
    + unfold x. rewrite u8_bits, Z.lor_spec by lia. change 255 with (Z.ones 8).
      rewrite land_ones_bits by lia. destruct (Z.ltb_spec (7 - i mod 8) 8); [|lia]. cbn [andb].
      assert (Hold : bit_at buf i = Z.testbit b (7 - i mod 8)).
      { unfold bit_at. rewrite E, Eb. reflexivity. }
      rewrite Hold.
      replace (8 * (offset + Z.of_nat (S n)) - 1 - i) with (7 - i mod 8) by lia.
      destruct (Z.leb_spec (8 * offset) i), (Z.ltb_spec i (8 * (offset + Z.of_nat n))),
        (Z.ltb_spec i (8 * (offset + Z.of_nat (S n)))); try lia; cbn [andb].
    + f_equal. destruct (Z.leb_spec (8 * offset) i); cbn [andb]; [|reflexivity].
      destruct (Z.ltb_spec i (8 * (offset + Z.of_nat n))), (Z.ltb_spec i (8 * (offset + Z.of_nat (S n))));
        try (exfalso; lia); cbn [andb]; [|reflexivity].
      rewrite Z.shiftr_spec by lia. f_equal. lia.
Qed.

(** Sizes for which the [uint32_t] bit positions of the writer do not wrap. *)
Definition small_buf (b : bytes) : Prop := 8 * zlen b + 128 <= 2 ^ 32.

Lemma land7 x : 0 <= x -> Z.land x 7 = x mod 8.
Proof. intros. change 7 with (Z.ones 3). rewrite Z.land_ones by lia. reflexivity. Qed.

Lemma masked_src src bits : 1 <= bits <= 56 -> 0 <= src ->
  Z.land src (u64 (Z.shiftl 1 bits) - 1) = src mod 2 ^ bits.
Proof.
  intros Hb Hs. rewrite u64_shift1 by lia. rewrite Z.shiftl_1_l.
  replace (2 ^ bits - 1) with (Z.ones bits) by (rewrite Z.ones_equiv; lia).
  apply Z.land_ones. lia.
Qed.

Lemma w_write_spec s src bits :
  all_bytes (bs_buf s) -> small_buf (bs_buf s) -> 0 <= bs_off s <= 8 * zlen (bs_buf s) ->
  1 <= bits <= 56 -> is_u64 src ->
  if bs_off s + bits <=? 8 * zlen (bs_buf s) then
    exists s', w_write s src bits = Ret 0 s' /\ bs_off s' = bs_off s + bits /\
      zlen (bs_buf s') = zlen (bs_buf s) /\ all_bytes (bs_buf s') /\
      forall i, 0 <= i < 8 * zlen (bs_buf s) -> bit_at (bs_buf s') i =
        bit_at (bs_buf s) i || ((bs_off s <=? i) && (i <? bs_off s + bits) &&
                                Z.testbit src (bs_off s + bits - 1 - i))
  else w_write s src bits = Ret (-1) s.
Proof.
  destruct s as [buf off]. cbn [bs_buf bs_off]. unfold small_buf, is_u64.
  change (2 ^ 32) with 4294967296. intros Hb Hsm Ho Hbits Hsrc.
  unfold w_write; cbn [bs_buf bs_off].
  destruct (Z.leb_spec bits 0); [lia|]. destruct (Z.gtb_spec bits 56); [lia|].
  rewrite (u32_id off) by (unfold is_u32; lia). rewrite (u32_id (off + bits)) by (unfold is_u32; lia).
  rewrite (u32_id (off + bits + 7)) by (unfold is_u32; lia).
  set (offset := off / 8). set (size := (off + bits + 7) / 8 - offset).
  assert (Hsz : 1 <= size <= 8) by (subst size offset; zdm; lia).
  assert (Ho8 : 0 <= offset <= zlen buf) by (subst offset; zdm; lia).
  cbv zeta. rewrite (u64_id size) by (unfold is_u64; lia). rewrite u64_id by (unfold is_u64; lia).
  destruct (Z.gtb_spec (offset + size) (zlen buf)), (Z.leb_spec (off + bits) (8 * zlen buf));
    try (exfalso; subst size offset; zdm; lia); [reflexivity|].
  rewrite land7 by lia. rewrite masked_src by lia.
  set (be := (off + bits) mod 8).
  set (sh := 8 * (offset + size) - (off + bits)).
  assert (Hsh : 0 <= sh < 8) by (subst sh size offset; zdm; lia).
  assert (Hsrc2 : (if be =? 0 then src mod 2 ^ bits else u64 (Z.shiftl (src mod 2 ^ bits) (8 - be)))
                  = Z.shiftl (src mod 2 ^ bits) sh).
  { assert (Hbe : be = 0 /\ sh = 0 \/ be <> 0 /\ sh = 8 - be) by (subst be sh size offset; zdm; lia).
    destruct (Z.eqb_spec be 0) as [E|E]; destruct Hbe as [[Hb1 Hb2]|[Hb1 Hb2]]; try lia.
    - now rewrite Hb2, Z.shiftl_0_r.
    - rewrite <- Hb2. apply u64_id. unfold is_u64. rewrite Z.shiftl_mul_pow2 by lia.
      pose proof (Z.mod_pos_bound src (2 ^ bits) ltac:(apply Z.pow_pos_nonneg; lia)).
      assert (2 ^ bits <= 2 ^ 56) by (apply Z.pow_le_mono_r; lia).
      assert (2 ^ sh <= 2 ^ 7) by (apply Z.pow_le_mono_r; lia).
      assert (0 < 2 ^ sh) by (apply Z.pow_pos_nonneg; lia).
      change (2 ^ 56) with 72057594037927936 in *. change (2 ^ 7) with 128 in *. nia. }
  rewrite Hsrc2.
  destruct (w_loop_spec (Z.to_nat size) buf offset (Z.shiftl (src mod 2 ^ bits) sh)) as (buf' & E & L & B & S); auto; try lia.
  { apply Z.shiftl_nonneg. apply Z.mod_pos_bound. apply Z.pow_pos_nonneg; lia. }
  rewrite E. eexists. split; [reflexivity|]. cbn [bs_buf bs_off].
  split; [reflexivity|]. split; [assumption|]. split; [assumption|].
  intros i Hi. rewrite S by assumption. f_equal.
  rewrite Z2Nat.id by lia.
  assert (HoL : 8 * offset <= off) by (subst offset; zdm; lia).
  assert (Heq : 8 * (offset + size) = off + bits + sh) by (subst sh; lia).
  rewrite Heq.
  destruct (Z.lt_ge_cases i (8 * offset)).
  { destruct (Z.leb_spec (8 * offset) i), (Z.leb_spec off i); try lia. }
  destruct (Z.lt_ge_cases i (off + bits + sh)).
  2:{ destruct (Z.ltb_spec i (off + bits + sh)), (Z.ltb_spec i (off + bits)); try lia.
      }
  destruct (Z.leb_spec (8 * offset) i), (Z.ltb_spec i (off + bits + sh)); try lia. cbn [andb].
  rewrite Z.shiftl_spec by lia.
  replace (off + bits + sh - 1 - i - sh) with (off + bits - 1 - i) by lia.
  destruct (Z.ltb_spec i (off + bits)).
  - destruct (Z.leb_spec off i); cbn [andb].
    + apply Z.mod_pow2_bits_low. lia.
    + apply Z.mod_pow2_bits_high. lia.
  - rewrite andb_false_r. cbn [andb]. apply Z.testbit_neg_r. lia.
Qed.

(** * The read loop *)
Lemma r_loop_spec : forall n buf o res,
  0 <= o -> o + Z.of_nat n < zlen buf -> all_bytes buf -> 0 <= res -> (n <= 7)%nat ->
  res < 2 ^ (8 * (8 - Z.of_nat n)) ->
  exists r, r_loop n buf o res = Some r /\ 0 <= r /\
  forall m, 0 <= m -> Z.testbit r m =
    if m <? 8 * Z.of_nat n then bit_at buf (8 * (o + Z.of_nat n) + 7 - m)
    else Z.testbit res (m - 8 * Z.of_nat n).
Proof.
  induction n as [|n IH]; intros buf o res Ho Hl Hb Hr Hn Hres; cbn [r_loop].
  - exists res. repeat (split; [auto|]). intros m Hm. change (8 * Z.of_nat 0) with 0.
    destruct (Z.ltb_spec m 0); [lia|]. now rewrite Z.sub_0_r.
  - destruct (zget_Some buf (o + 1)) as [b Eb]; [lia|]. rewrite Eb.
    assert (Hbb : is_u8 b) by (eapply Forall_zget; eauto).
    assert (Hsh : u64 (Z.shiftl res 8) = Z.shiftl res 8).
    { apply u64_id. unfold is_u64. rewrite Z.shiftl_mul_pow2 by lia. change (2 ^ 8) with 256.
      split; [lia|].
      assert (res < 2 ^ 56). { eapply Z.lt_le_trans; [exact Hres|]. apply Z.pow_le_mono_r; lia. }
      change (2 ^ 56) with 72057594037927936 in *. lia. }
    rewrite Hsh.
    destruct (IH buf (o + 1) (Z.lor (Z.shiftl res 8) b)) as (r & E & R0 & SP); auto; try lia.
    + apply Z.lor_nonneg. split; [now apply Z.shiftl_nonneg|unfold is_u8 in Hbb; lia].
    + assert (Z.lor (Z.shiftl res 8) b = res * 256 + b) as ->.
      { rewrite <- Z.lxor_lor, <- Z.add_nocarry_lxor.
        - now rewrite Z.shiftl_mul_pow2 by lia.
        - apply Z.bits_inj'. intros k Hk. rewrite Z.land_spec, Z.bits_0, Z.shiftl_spec by lia.
          destruct (Z.lt_ge_cases k 8); [rewrite Z.testbit_neg_r by lia; reflexivity|].
          rewrite (byte_bits_high b k) by assumption. apply andb_false_r.
        - apply Z.bits_inj'. intros k Hk. rewrite Z.land_spec, Z.bits_0, Z.shiftl_spec by lia.
          destruct (Z.lt_ge_cases k 8); [rewrite Z.testbit_neg_r by lia; reflexivity|].
          rewrite (byte_bits_high b k) by assumption. apply andb_false_r. }
      replace (8 * (8 - Z.of_nat n)) with (8 * (8 - Z.of_nat (S n)) + 8) by lia.
      rewrite Z.pow_add_r by lia. change (2 ^ 8) with 256. unfold is_u8 in Hbb.
      set (P := 2 ^ (8 * (8 - Z.of_nat (S n)))) in *. lia.
    + exists r. split; [assumption|]. split; [assumption|]. intros m Hm. rewrite SP by assumption.
      replace (8 * Z.of_nat (S n)) with (8 * Z.of_nat n + 8) by lia.
      replace (o + Z.of_nat (S n)) with (o + 1 + Z.of_nat n) by lia.
      destruct (Z.ltb_spec m (8 * Z.of_nat n)), (Z.ltb_spec m (8 * Z.of_nat n + 8)); try (exfalso; lia); [reflexivity| |].
      * rewrite Z.lor_spec, Z.shiftl_spec by lia.
        rewrite (Z.testbit_neg_r res) by lia. cbn [orb].
        unfold bit_at.
        replace ((8 * (o + 1 + Z.of_nat n) + 7 - m) / 8) with (o + 1) by (zdm; lia).
        rewrite Eb. f_equal. zdm; lia.
      * rewrite Z.lor_spec, Z.shiftl_spec by lia.
        rewrite (byte_bits_high b) by (auto; lia). rewrite orb_false_r. f_equal. lia.
Qed.

Lemma first_byte_mask b bs m : is_u8 b -> 0 <= bs < 8 -> 0 <= m ->
  Z.testbit (if bs =? 0 then b else Z.land b (Z.shiftr 255 bs)) m = (m <? 8 - bs) && Z.testbit b m.
Proof.
  intros Hb Hbs Hm. destruct (Z.eqb_spec bs 0) as [->|].
  - destruct (Z.ltb_spec m (8 - 0)); cbn [andb]; [reflexivity|]. apply byte_bits_high; auto; lia.
  - rewrite Z.land_spec, Z.shiftr_spec by lia. change 255 with (Z.ones 8).
    destruct (Z.ltb_spec m (8 - bs)).
    + rewrite Z.ones_spec_low by lia. now rewrite andb_true_r.
    + rewrite Z.ones_spec_high by lia. now rewrite andb_false_r.
Qed.

Lemma r_read_spec s bits :
  all_bytes (bs_buf s) -> 0 <= bs_off s <= 8 * zlen (bs_buf s) -> 1 <= bits <= 56 ->
  if bs_off s + bits <=? 8 * zlen (bs_buf s) then
    exists v, r_read s bits = Ret 0 ({| bs_buf := bs_buf s; bs_off := bs_off s + bits |}, Some v) /\
      0 <= v /\ forall m, 0 <= m -> Z.testbit v m = (m <? bits) && bit_at (bs_buf s) (bs_off s + bits - 1 - m)
  else r_read s bits = Ret (-1) (s, None).
Proof.
  destruct s as [buf off]; cbn [bs_buf bs_off]. intros Hb Ho Hbits.
  unfold r_read; cbn [bs_buf bs_off].
  destruct (Z.leb_spec bits 0); [lia|]. destruct (Z.gtb_spec bits 56); [lia|].
  set (offset := off / 8). set (size := (off + bits + 7) / 8 - offset).
  assert (Hsz : 1 <= size <= 8) by (subst size offset; zdm; lia).
  assert (Ho8 : 0 <= offset <= zlen buf) by (subst offset; zdm; lia).
  cbv zeta. fold offset size.
  destruct (Z.gtb_spec (offset + size) (zlen buf)), (Z.leb_spec (off + bits) (8 * zlen buf));
    try (exfalso; subst size offset; zdm; lia); [reflexivity|].
  rewrite !land7 by lia.
  destruct (zget_Some buf offset) as [b0 E0]; [lia|]. rewrite E0.
  assert (Hb0 : is_u8 b0) by (eapply Forall_zget; eauto).
  set (res0 := if off mod 8 =? 0 then b0 else Z.land b0 (Z.shiftr 255 (off mod 8))).
  pose proof (Z.mod_pos_bound off 8 ltac:(lia)) as Hm8.
  assert (Hres0 : forall m, 0 <= m -> Z.testbit res0 m = (m <? 8 - off mod 8) && Z.testbit b0 m)
    by (intros; apply first_byte_mask; auto; lia).
  assert (Hr0 : 0 <= res0).
  { unfold res0. destruct (_ =? 0); [unfold is_u8 in Hb0; lia|]. apply Z.land_nonneg. left. unfold is_u8 in Hb0; lia. }
  assert (Hlt : res0 < 2 ^ 8).
  { assert (E : res0 = res0 mod 2 ^ 8).
    { apply Z.bits_inj'. intros m Hm. destruct (Z.lt_ge_cases m 8).
      - now rewrite Z.mod_pow2_bits_low.
      - rewrite Z.mod_pow2_bits_high by lia. rewrite Hres0 by lia.
        destruct (Z.ltb_spec m (8 - off mod 8)); [lia|reflexivity]. }
    rewrite E. apply Z.mod_pos_bound. lia. }
  destruct (r_loop_spec (Z.to_nat (size - 1)) buf offset res0) as (r & Er & R0 & S); auto; try lia.
  { eapply Z.lt_le_trans; [exact Hlt|]. apply Z.pow_le_mono_r; lia. }
  rewrite Er. eexists. split; [reflexivity|].
  rewrite Z2Nat.id in S by lia.
  set (sh := 8 * (offset + size) - (off + bits)).
  assert (Hsh : 0 <= sh < 8) by (subst sh size offset; zdm; lia).
  assert (Hfin : (if (off + bits) mod 8 =? 0 then r else Z.shiftr r (8 - (off + bits) mod 8)) = Z.shiftr r sh).
  { assert (Hbe : (off + bits) mod 8 = 0 /\ sh = 0 \/ (off + bits) mod 8 <> 0 /\ sh = 8 - (off + bits) mod 8)
      by (subst sh size offset; zdm; lia).
    destruct (Z.eqb_spec ((off + bits) mod 8) 0) as [E|E]; destruct Hbe as [[Hb1 Hb2]|[Hb1 Hb2]]; try lia.
    - now rewrite Hb2, Z.shiftr_0_r.
    - now rewrite Hb2. }
  rewrite Hfin. split; [now apply Z.shiftr_nonneg|].
  intros m Hm. rewrite Z.shiftr_spec, S by lia.
  assert (HoL : off = 8 * offset + off mod 8) by (subst offset; zdm; lia).
  assert (Heq : 8 * (offset + size) = off + bits + sh) by (subst sh; lia).
  destruct (Z.ltb_spec (m + sh) (8 * (size - 1))).
  - destruct (Z.ltb_spec m bits); [|lia]. cbn [andb]. f_equal. lia.
  - rewrite Hres0 by lia.
    destruct (Z.ltb_spec (m + sh - 8 * (size - 1)) (8 - off mod 8)), (Z.ltb_spec m bits); try (exfalso; lia); cbn [andb]; [|reflexivity].
    unfold bit_at.
    replace ((off + bits - 1 - m) / 8) with offset by (zdm; lia).
    rewrite E0. f_equal. zdm; lia.
Qed.

(** * Round trip *)

Lemma bs_pad_off s : 0 <= bs_off s -> bs_off (bs_pad s) = pad8 (bs_off s).
Proof.
  intros H. unfold bs_pad, pad8; cbn [bs_off]. rewrite land7 by assumption.
  destruct (Z.eqb_spec (bs_off s mod 8) 0); zdm; lia.
Qed.

Lemma end_of_ge o i : 0 <= o -> plain i -> o <= end_of o i.
Proof. destruct i; cbn [plain end_of]; unfold pad8; intros; try contradiction; zdm; lia. Qed.

Lemma end_all_ge : forall l o, 0 <= o -> Forall plain l -> o <= end_all o l.
Proof.
  induction l as [|i l IH]; intros o Ho H; cbn [end_all]; [lia|].
  inversion H; subst. pose proof (end_of_ge o i Ho ltac:(assumption)).
  specialize (IH (end_of o i) ltac:(lia) ltac:(assumption)). lia.
Qed.

Lemma pad8_le o n : o <= 8 * n -> pad8 o <= 8 * n.
Proof. unfold pad8; intros; zdm; lia. Qed.

(** Writing items does not disturb earlier bits, and later bits stay zero. *)
Lemma write_all_spec : forall l s,
  all_bytes (bs_buf s) -> small_buf (bs_buf s) -> 0 <= bs_off s ->
  Forall plain l -> end_all (bs_off s) l <= 8 * zlen (bs_buf s) ->
  (forall i, bs_off s <= i < 8 * zlen (bs_buf s) -> bit_at (bs_buf s) i = false) ->
  exists s', write_all s l = Some s' /\ zlen (bs_buf s') = zlen (bs_buf s) /\ all_bytes (bs_buf s') /\
    bs_off s' = end_all (bs_off s) l /\
    (forall i, 0 <= i < bs_off s -> bit_at (bs_buf s') i = bit_at (bs_buf s) i) /\
    (forall i, bs_off s' <= i < 8 * zlen (bs_buf s) -> bit_at (bs_buf s') i = false) /\
    (forall r, bs_buf r = bs_buf s' -> bs_off r = bs_off s -> read_all r (map fmt_of l) = Some (map expect l)).
Proof.
  induction l as [|it l IH]; intros s Hb Hsm Ho Hp Hend Hz.
  { exists s. cbn [write_all end_all map read_all] in *. repeat (split; [auto|]). auto. }
  inversion Hp as [|? ? Hit Hp']; subst. cbn [end_all] in Hend.
  pose proof (end_all_ge l (end_of (bs_off s) it)) as Hge.
  pose proof (end_of_ge (bs_off s) it Ho Hit) as Hge1.
  specialize (Hge ltac:(lia) Hp').
  destruct it as [v bits| |b]; cbn [plain] in Hit; [| |contradiction].
  - destruct Hit as [Hbits Hv]. cbn [end_of] in *.
    pose proof (w_write_spec s v bits Hb Hsm ltac:(lia) Hbits Hv) as W.
    destruct (Z.leb_spec (bs_off s + bits) (8 * zlen (bs_buf s))); [|lia].
    destruct W as (s1 & E1 & O1 & L1 & B1 & S1).
    destruct (IH s1) as (s2 & E2 & L2 & B2 & O2 & P2 & Z2 & R2); auto.
    { unfold small_buf in *. now rewrite L1. } { lia. } { rewrite O1, L1. lia. }
    { intros i Hi. rewrite S1 by lia. rewrite Hz by lia. cbn [orb].
      destruct (Z.ltb_spec i (bs_off s + bits)); [lia|]. now rewrite andb_false_r. }
    exists s2. cbn [write_all]. rewrite E1. split; [assumption|]. split; [lia|]. split; [assumption|].
    split; [cbn [end_all end_of]; now rewrite O2, O1|].
    split.
    { intros i Hi. rewrite P2 by lia. rewrite S1 by lia.
      destruct (Z.leb_spec (bs_off s) i); [lia|]. cbn [andb]. now rewrite orb_false_r. }
    split. { intros i Hi. apply Z2. lia. }
    intros r Hr1 Hr2. cbn [map fmt_of read_all expect].
    assert (Hoff : 0 <= bs_off r <= 8 * zlen (bs_buf r)) by (rewrite Hr1, Hr2; lia).
    assert (Hall : all_bytes (bs_buf r)) by (rewrite Hr1; assumption).
    pose proof (r_read_spec r bits Hall Hoff Hbits) as RD.
    rewrite Hr1, Hr2 in RD.
    destruct (Z.leb_spec (bs_off s + bits) (8 * zlen (bs_buf s2))); [|lia].
    destruct RD as (x & Ex & X0 & X). rewrite Ex.
    assert (Hx : x = v mod 2 ^ bits).
    { apply Z.bits_inj'. intros m Hm. rewrite X by assumption.
      destruct (Z.ltb_spec m bits); cbn [andb].
      - rewrite Z.mod_pow2_bits_low by lia. rewrite P2 by lia. rewrite S1 by lia. rewrite Hz by lia. cbn [orb].
        destruct (Z.leb_spec (bs_off s) (bs_off s + bits - 1 - m)); [|lia].
        destruct (Z.ltb_spec (bs_off s + bits - 1 - m) (bs_off s + bits)); [|lia]. cbn [andb]. f_equal. lia.
      - rewrite Z.mod_pow2_bits_high by lia. reflexivity. }
    subst x. rewrite R2; [reflexivity|reflexivity|cbn [bs_off]; lia].
  - cbn [end_of] in *.
    destruct (IH (bs_pad s)) as (s2 & E2 & L2 & B2 & O2 & P2 & Z2 & R2); auto.
    { rewrite bs_pad_off by assumption. lia. }
    { rewrite bs_pad_off by assumption. exact Hend. }
    { rewrite bs_pad_off by assumption. intros i Hi. apply Hz. cbn [bs_pad bs_buf] in Hi. lia. }
    rewrite bs_pad_off in * by assumption.
    exists s2. cbn [write_all end_all end_of]. split; [assumption|]. split; [exact L2|]. split; [assumption|].
    split; [assumption|].
    split. { intros i Hi. rewrite P2 by lia. reflexivity. }
    split. { intros i Hi. apply Z2. exact Hi. }
    intros r Hr1 Hr2. cbn [map fmt_of read_all expect].
    rewrite R2; [reflexivity|exact Hr1|]. rewrite bs_pad_off by lia. now rewrite Hr2.
Qed.

Lemma repeat_zero_bit len i : bit_at (repeat 0 len) i = false.
Proof.
  unfold bit_at. destruct (zget _ _) as [b|] eqn:E; [|reflexivity].
  apply (Forall_zget (fun x => x = 0)) in E; [subst b; apply Z.bits_0|].
  clear. induction len; cbn; constructor; auto.
Qed.

Lemma repeat_bytes len : all_bytes (repeat 0 len).
Proof. unfold all_bytes. induction len; cbn; constructor; auto. unfold is_u8; lia. Qed.

Lemma stream_roundtrip len l : 8 * Z.of_nat len + 128 <= 2 ^ 32 -> Forall plain l ->
  end_all 0 l <= 8 * Z.of_nat len ->
  exists s', write_all (w_init len) l = Some s' /\ length (bs_buf s') = len /\
    bs_off s' = end_all 0 l /\
    read_all (r_init (bs_buf s')) (map fmt_of l) = Some (map expect l).
Proof.
  intros Hl Hp He.
  destruct (write_all_spec l (w_init len)) as (s' & E & L & B & O & P & Z0 & R); auto;
    cbn [w_init bs_buf bs_off] in *; unfold zlen, small_buf, zlen in *; rewrite ?repeat_length in *; try lia.
  - apply repeat_bytes.
  - intros. apply repeat_zero_bit.
  - exists s'. split; [assumption|]. split; [lia|]. split; [assumption|]. now apply R.
Qed.

(** A write that does not fit reports an error and changes nothing; no call
    touches memory outside of the buffer. *)
Lemma w_write_safe s src bits : all_bytes (bs_buf s) -> small_buf (bs_buf s) ->
  0 <= bs_off s <= 8 * zlen (bs_buf s) -> is_u64 src ->
  w_write s src bits <> Fault /\
  (bits > 56 -> w_write s src bits = Ret (-1) s) /\
  (1 <= bits <= 56 -> bs_off s + bits > 8 * zlen (bs_buf s) -> w_write s src bits = Ret (-1) s).
Proof.
  intros Hb Hs Ho Hsrc. destruct (Z.lt_ge_cases bits 1).
  { unfold w_write. destruct (Z.leb_spec bits 0); [|lia]. repeat split; try discriminate; lia. }
  destruct (Z.lt_ge_cases 56 bits).
  { unfold w_write. destruct (Z.leb_spec bits 0); [lia|]. destruct (Z.gtb_spec bits 56); [|lia].
    repeat split; try discriminate; lia. }
  pose proof (w_write_spec s src bits Hb Hs Ho ltac:(lia) Hsrc) as W.
  destruct (Z.leb_spec (bs_off s + bits) (8 * zlen (bs_buf s))).
  - destruct W as (s' & -> & _). repeat split; try discriminate; lia.
  - rewrite W. repeat split; try discriminate; lia.
Qed.

Lemma r_read_safe s bits : all_bytes (bs_buf s) -> 0 <= bs_off s <= 8 * zlen (bs_buf s) ->
  r_read s bits <> Fault /\
  (1 <= bits <= 56 -> bs_off s + bits > 8 * zlen (bs_buf s) -> r_read s bits = Ret (-1) (s, None)).
Proof.
  intros Hb Ho. destruct (Z.lt_ge_cases bits 1).
  { unfold r_read. destruct (Z.leb_spec bits 0); [|lia]. repeat split; try discriminate; lia. }
  destruct (Z.lt_ge_cases 56 bits).
  { unfold r_read. destruct (Z.leb_spec bits 0); [lia|]. destruct (Z.gtb_spec bits 56); [|lia].
    repeat split; try discriminate; lia. }
  pose proof (r_read_spec s bits Hb Ho ltac:(lia)) as W.
  destruct (Z.leb_spec (bs_off s + bits) (8 * zlen (bs_buf s))).
  - destruct W as (s' & -> & _). repeat split; try discriminate; lia.
  - rewrite W. repeat split; try discriminate; lia.
Qed.
