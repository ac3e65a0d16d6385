(** Proofs about the duplicate set. *)
From Verif Require Import Base DupsetModel DupsetSpec.

(** * Distance arithmetic *)

Lemma s64_u64 z : s64 (u64 z) = s64 z.
Proof. unfold s64, u64. now rewrite Z.mod_mod by lia. Qed.

Lemma dseqno_circ t s v : dseqno_difference (dset_add t) s v = circ_dist (width t) s v.
Proof.
  unfold dseqno_difference, circ_dist.
  assert (Hm : forall n x, 0 < n <= 63 -> Z.land (s64 x) (2 ^ n - 1) = x mod 2 ^ n).
  { intros n x Hn. replace (2 ^ n - 1) with (Z.ones n) by (rewrite Z.ones_equiv; lia).
    rewrite Z.land_ones by lia.
    assert (E : exists q, s64 x = x + q * 2 ^ 64).
    { unfold s64, u64. change 18446744073709551616 with (2 ^ 64).
      pose proof (Z.div_mod x (2 ^ 64) ltac:(lia)) as D.
      destruct (_ <? _); [exists (- (x / 2 ^ 64)) | exists (- (x / 2 ^ 64) - 1)]; lia. }
    destruct E as [q ->].
    replace (q * 2 ^ 64) with (q * 2 ^ (64 - n) * 2 ^ n)
      by (rewrite <- Z.mul_assoc, <- Z.pow_add_r by lia; do 2 f_equal; lia).
    now rewrite Z.mod_add by (apply Z.pow_nonzero; lia). }
  assert (Hsub : forall n x, 0 < n <= 64 -> u64 x mod 2 ^ n = x mod 2 ^ n).
  { intros n x Hn. unfold u64. change 18446744073709551616 with (2 ^ 64).
    replace (2 ^ 64) with (2 ^ n * 2 ^ (64 - n)) by (rewrite <- Z.pow_add_r by lia; f_equal; lia).
    rewrite Z.rem_mul_r by (try apply Z.pow_nonzero; try apply Z.pow_pos_nonneg; lia).
    rewrite Z.mul_comm, Z.mod_add by (apply Z.pow_nonzero; lia).
    apply Z.mod_mod. apply Z.pow_nonzero; lia. }
  destruct t; cbn [dset_add ds_mask ds_limit ds_offset width mask_value].
  - change (255 =? 0) with false. cbv iota. change 255 with (2 ^ 8 - 1) at 1 2 3 4 5.
    rewrite Hm, Hsub by lia. cbv zeta. change (2 ^ 8 / 2) with 128. change ((2 ^ 8 - 1) / 2) with 127.
    change (2 ^ 8) with 256.
    pose proof (Z.mod_pos_bound (s - v) 256 ltac:(lia)).
    destruct (Z.gtb_spec ((s - v) mod 256) 127), (Z.ltb_spec ((s - v) mod 256) 128); lia.
  - change (65535 =? 0) with false. cbv iota. change 65535 with (2 ^ 16 - 1).
    rewrite Hm, Hsub by lia. cbv zeta. change (2 ^ 16 / 2) with 32768.
    change ((2 ^ 16 - 1) / 2) with 32767. change (2 ^ 16) with 65536.
    pose proof (Z.mod_pos_bound (s - v) 65536 ltac:(lia)).
    destruct (Z.gtb_spec ((s - v) mod 65536) 32767), (Z.ltb_spec ((s - v) mod 65536) 32768); lia.
  - change (4294967295 =? 0) with false. cbv iota. change 4294967295 with (2 ^ 32 - 1).
    rewrite Hm, Hsub by lia. cbv zeta. change (2 ^ 32 / 2) with 2147483648.
    change ((2 ^ 32 - 1) / 2) with 2147483647. change (2 ^ 32) with 4294967296.
    pose proof (Z.mod_pos_bound (s - v) 4294967296 ltac:(lia)).
    destruct (Z.gtb_spec ((s - v) mod 4294967296) 2147483647), (Z.ltb_spec ((s - v) mod 4294967296) 2147483648); lia.
  - change (0 =? 0) with true. cbv iota. rewrite s64_u64. unfold s64, u64.
    change (2 ^ 64 / 2) with 9223372036854775808. change (2 ^ 64) with 18446744073709551616. reflexivity.
Qed.

Lemma width_cases t : width t = 256 \/ width t = 65536 \/ width t = 4294967296 \/ width t = 18446744073709551616.
Proof. destruct t; cbn [width]; [left|right;left|right;right;left|right;right;right]; reflexivity. Qed.

Lemma circ_dist_range t s v : - (width t / 2) <= circ_dist (width t) s v < width t / 2.
Proof.
  unfold circ_dist. destruct (width_cases t) as [-> | [-> | [-> | ->]]];
  match goal with |- context [?x mod ?w] => pose proof (Z.mod_pos_bound x w ltac:(lia)) end;
  match goal with |- context [?x <? ?y] => destruct (Z.ltb_spec x y) end; zdm; lia.
Qed.

Lemma circ_dist_cong w s v : 0 < w -> (v + circ_dist w s v) mod w = s mod w.
Proof.
  intros Hw. unfold circ_dist. destruct (_ <? _).
  - rewrite Zplus_mod_idemp_r. f_equal. lia.
  - replace (v + ((s - v) mod w - w)) with (v + (s - v) mod w + (-1) * w) by lia.
    rewrite Z.mod_add by lia. rewrite Zplus_mod_idemp_r. f_equal. lia.
Qed.

Lemma circ_dist_mod w s v v' : v mod w = v' mod w -> circ_dist w s v = circ_dist w s v'.
Proof. intros H. unfold circ_dist. now rewrite (Zminus_mod s v), (Zminus_mod s v'), H. Qed.

(** * Refinement *)

Definition sim (t : dup_type) (e : dentry) (r : refstate) : Prop :=
  0 <= de_current e < width t /\
  de_current e = r_top r mod width t /\
  0 <= de_history e < 2 ^ 64 /\
  (forall p, In p (r_seen r) -> p <= r_top r) /\
  (forall k, 0 <= k <= 31 -> Z.testbit (de_history e) k = inb (r_top r - k) (r_seen r)) /\
  inb (r_top r) (r_seen r) = true /\
  de_too_old e = r_old r /\ 0 <= r_old r <= 8.

Lemma inb_In x l : inb x l = true <-> In x l.
Proof.
  unfold inb. rewrite existsb_exists. split.
  - intros (y & Hy & E). apply Z.eqb_eq in E. now subst.
  - intros H. exists x. split; [assumption|apply Z.eqb_refl].
Qed.

Lemma inb_cons x y l : inb x (y :: l) = (x =? y) || inb x l.
Proof. reflexivity. Qed.

Lemma testbit_shift1 n k : 0 <= n -> Z.testbit (Z.shiftl 1 n) k = (k =? n).
Proof.
  intros Hn. rewrite Z.shiftl_1_l. destruct (Z.eqb_spec k n) as [->|].
  - now apply Z.pow2_bits_true.
  - apply Z.pow2_bits_false; lia.
Qed.

Lemma land_bit_zero h n : 0 <= n -> (Z.land h (Z.shiftl 1 n) =? 0) = negb (Z.testbit h n).
Proof.
  intros Hn. destruct (Z.testbit h n) eqn:E; cbn [negb].
  - apply Z.eqb_neq. intros H. assert (T : Z.testbit (Z.land h (Z.shiftl 1 n)) n = true).
    { rewrite Z.land_spec, testbit_shift1, E, Z.eqb_refl by assumption. reflexivity. }
    rewrite H, Z.bits_0 in T. discriminate.
  - apply Z.eqb_eq. apply Z.bits_inj'. intros m Hm.
    rewrite Z.land_spec, testbit_shift1, Z.bits_0 by assumption.
    destruct (Z.eqb_spec m n) as [->|]; [now rewrite E|]. apply andb_false_r.
Qed.

Lemma u32_shift1 n : 0 <= n <= 31 -> u32 (Z.shiftl 1 n) = Z.shiftl 1 n.
Proof.
  intros H. rewrite Z.shiftl_1_l. apply u32_id. unfold is_u32. split; [lia|].
  change 4294967296 with (2 ^ 32). apply Z.pow_lt_mono_r; lia.
Qed.

Lemma testbit_lt h : forall n, 0 <= n -> 0 <= h -> (forall m, n <= m -> Z.testbit h m = false) -> h < 2 ^ n.
Proof.
  intros n Hn H0 Hb.
  assert (E : h = h mod 2 ^ n).
  { apply Z.bits_inj'. intros m Hm. destruct (Z.lt_ge_cases m n).
    - now rewrite Z.mod_pow2_bits_low.
    - rewrite Z.mod_pow2_bits_high by lia. apply Hb; lia. }
  rewrite E. apply Z.mod_pos_bound. apply Z.pow_pos_nonneg; lia.
Qed.

Lemma lt_testbit h n m : 0 <= h < 2 ^ n -> 0 <= n <= m -> Z.testbit h m = false.
Proof.
  intros Hh Hm. destruct (Z.eq_dec h 0) as [->|]; [apply Z.bits_0|].
  apply Z.bits_above_log2; [lia|]. apply Z.log2_lt_pow2; [lia|].
  eapply Z.lt_le_trans; [apply Hh|]. apply Z.pow_le_mono_r; lia.
Qed.

Lemma lor_bound a b : 0 <= a < 2 ^ 64 -> 0 <= b < 2 ^ 64 -> 0 <= Z.lor a b < 2 ^ 64.
Proof.
  intros Ha Hb. split; [apply Z.lor_nonneg; lia|].
  apply testbit_lt; [lia|apply Z.lor_nonneg; lia|].
  intros m Hm. rewrite Z.lor_spec, (lt_testbit a 64), (lt_testbit b 64) by lia. reflexivity.
Qed.

Lemma sim_first t s : 0 <= s < width t -> sim t (impl_first s) (ref_first s).
Proof.
  intros Hs. unfold sim, impl_first, ref_first; cbn [de_current de_history de_too_old r_top r_seen r_old].
  split; [assumption|]. split; [now rewrite Z.mod_small|]. split; [lia|].
  split. { intros p [<-|[]]. lia. }
  split. { intros k Hk. rewrite inb_cons. cbn [inb existsb]. rewrite orb_false_r.
    change 1 with (Z.shiftl 1 0). rewrite testbit_shift1 by lia.
    destruct (Z.eqb_spec k 0), (Z.eqb_spec (s - k) s); lia. }
  split. { rewrite inb_cons, Z.eqb_refl. reflexivity. }
  lia.
Qed.

Lemma sim_step t e r s : sim t e r -> 0 <= s < width t ->
  forall ra r' ia e', ref_add (width t) r s = (ra, r') -> dup_test (dset_add t) e s true = (ia, e') ->
  ia = ra /\ sim t e' r'.
Proof.
  intros (S1 & S2 & S3 & S4 & S5 & S6 & S7 & S8) Hs ra r' ia e' HR HI.
  assert (Hw : 0 < width t) by lia.
  unfold ref_add in HR. unfold dup_test in HI. rewrite dseqno_circ in HI.
  assert (D : circ_dist (width t) s (de_current e) = circ_dist (width t) s (r_top r)).
  { apply circ_dist_mod. rewrite S2. now rewrite Z.mod_mod by lia. }
  rewrite D in HI. set (d := circ_dist (width t) s (r_top r)) in *.
  assert (Hd : - (width t / 2) <= d < width t / 2) by apply circ_dist_range.
  assert (Hcong : (r_top r + d) mod width t = s).
  { unfold d. rewrite circ_dist_cong by assumption. now apply Z.mod_small. }
  assert (Hcur : (s =? de_current e) = (r_top r + d =? r_top r)).
  { destruct (Z.eqb_spec s (de_current e)) as [E|E], (Z.eqb_spec (r_top r + d) (r_top r)) as [F|F]; try reflexivity; exfalso.
    - apply F. unfold d, circ_dist. rewrite E, S2.
      rewrite Zminus_mod_idemp_l, Z.sub_diag, Z.mod_0_l by lia.
      assert (0 < width t / 2) by (destruct (width_cases t) as [W | [W | [W | W]]]; rewrite W; reflexivity).
      destruct (Z.ltb_spec 0 (width t / 2)); lia.
    - apply E. rewrite F in Hcong. rewrite S2, Hcong. reflexivity. }
  rewrite Hcur in HI. cbv zeta in *.
  destruct (Z.eqb_spec (r_top r + d) (r_top r)) as [E|E].
  { injection HR as <- <-. injection HI as <- <-. split; [reflexivity|]. unfold sim; auto 10. }
  replace (r_top r + d <? r_top r - 31) with (d <? -31) in HR
    by (destruct (Z.ltb_spec d (-31)), (Z.ltb_spec (r_top r + d) (r_top r - 31)); lia).
  destruct (Z.ltb_spec d (-31)) as [Hlow|Hlow].
  { rewrite u16_id in HI by (unfold is_u16; lia). rewrite S7 in HI. unfold MAXIMUM_TOO_OLD in HI.
    destruct (r_old r + 1 >? 8) eqn:G.
    - injection HR as <- <-. injection HI as <- <-. split; [reflexivity|].
      unfold sim; cbn [de_current de_history de_too_old r_top r_seen r_old].
      split; [assumption|]. split; [now rewrite Hcong|]. split; [lia|].
      split. { intros p [<-|[]]. lia. }
      split. { intros k Hk. rewrite inb_cons. cbn [inb existsb]. rewrite orb_false_r.
        change 1 with (Z.shiftl 1 0). rewrite testbit_shift1 by lia.
        destruct (Z.eqb_spec k 0), (Z.eqb_spec (r_top r + d - k) (r_top r + d)); lia. }
      split. { rewrite inb_cons, Z.eqb_refl. reflexivity. } lia.
    - injection HR as <- <-. injection HI as <- <-. split; [reflexivity|].
      unfold sim; cbn [de_current de_history de_too_old r_top r_seen r_old].
      repeat (split; [assumption|]). lia. }
  destruct (Z.leb_spec d 0) as [Hle|Hgt].
  { (* inside the window *)
    rewrite u32_shift1 in HI by lia. rewrite land_bit_zero, negb_involutive in HI by lia.
    rewrite S5 in HI by lia. replace (r_top r - - d) with (r_top r + d) in HI by lia.
    destruct (inb (r_top r + d) (r_seen r)) eqn:Hin.
    - injection HR as <- <-. injection HI as <- <-. split; [reflexivity|].
      unfold sim; cbn [de_current de_history de_too_old r_top r_seen r_old].
      repeat (split; [assumption|]). lia.
    - destruct (Z.ltb_spec (r_top r + d) (r_top r)); [|lia].
      injection HR as <- <-. injection HI as <- <-. split; [reflexivity|].
      unfold sim; cbn [de_current de_history de_too_old r_top r_seen r_old].
      split; [assumption|]. split; [assumption|].
      split. { apply lor_bound; [assumption|]. rewrite Z.shiftl_1_l. split; [lia|]. apply Z.pow_lt_mono_r; lia. }
      split. { intros p [<-|Hp]; [lia|auto]. }
      split. { intros k Hk. rewrite Z.lor_spec, testbit_shift1, S5, inb_cons by lia.
        rewrite orb_comm. f_equal. destruct (Z.eqb_spec k (- d)), (Z.eqb_spec (r_top r - k) (r_top r + d)); lia. }
      split. { rewrite inb_cons, S6. apply orb_true_r. } lia. }
  (* ahead of everything *)
  assert (Hin : inb (r_top r + d) (r_seen r) = false).
  { destruct (inb (r_top r + d) (r_seen r)) eqn:F; [|reflexivity].
    apply inb_In in F. apply S4 in F. lia. }
  rewrite Hin in HR. destruct (Z.ltb_spec (r_top r + d) (r_top r)); [lia|].
  injection HR as <- <-. injection HI as <- <-. split; [reflexivity|].
  unfold sim; cbn [de_current de_history de_too_old r_top r_seen r_old].
  split; [assumption|]. split; [now rewrite Hcong|].
  assert (Hhi : forall k, 0 <= k <= 31 ->
    inb (r_top r + d - k) ((r_top r + d) :: r_seen r) =
    (k =? 0) || (if k <? d then false else inb (r_top r - (k - d)) (r_seen r))).
  { intros k Hk. rewrite inb_cons. f_equal.
    - destruct (Z.eqb_spec k 0), (Z.eqb_spec (r_top r + d - k) (r_top r + d)); lia.
    - destruct (Z.ltb_spec k d).
      + destruct (inb (r_top r + d - k) (r_seen r)) eqn:F; [|reflexivity].
        apply inb_In, S4 in F. lia.
      + f_equal. lia. }
  split; [|split; [|split; [|split; [|lia]]]].
  - destruct (Z.geb_spec d 32); [lia|]. apply lor_bound; [|lia].
    unfold u64. change (2 ^ 64) with 18446744073709551616. apply Z.mod_pos_bound. lia.
  - intros p [<-|Hp]; [lia|]. apply S4 in Hp. lia.
  - intros k Hk. rewrite Hhi by assumption. destruct (Z.geb_spec d 32) as [G|G].
    + change 1 with (Z.shiftl 1 0) at 1. rewrite testbit_shift1 by lia.
      destruct (Z.ltb_spec k d); [|lia]. now rewrite orb_false_r.
    + rewrite Z.lor_spec. unfold u64. change 18446744073709551616 with (2 ^ 64).
      rewrite Z.mod_pow2_bits_low by lia. change 1 with (Z.shiftl 1 0) at 1.
      rewrite testbit_shift1 by lia. rewrite orb_comm. f_equal.
      rewrite Z.shiftl_spec by lia. destruct (Z.ltb_spec k d).
      * apply Z.testbit_neg_r. lia.
      * now rewrite S5 by lia.
  - rewrite inb_cons, Z.eqb_refl. reflexivity.
Qed.

Lemma sim_run t : forall ss e r, sim t e r -> Forall (fun s => 0 <= s < width t) ss ->
  fst (impl_run (dset_add t) e ss) = fst (ref_run (width t) r ss) /\
  sim t (snd (impl_run (dset_add t) e ss)) (snd (ref_run (width t) r ss)).
Proof.
  induction ss as [|s ss IH]; intros e r H HF; cbn [impl_run ref_run]; [now split|].
  inversion HF as [|? ? Hs HF']; subst.
  destruct (dup_test (dset_add t) e s true) as [ia e'] eqn:EI.
  destruct (ref_add (width t) r s) as [ra r'] eqn:ER.
  destruct (sim_step t e r s H Hs ra r' ia e' ER EI) as [-> H'].
  specialize (IH e' r' H' HF'). destruct (impl_run _ e' ss), (ref_run _ r' ss). cbn [fst snd] in *.
  destruct IH as [-> ?]. now split.
Qed.

(** Every answer of the implementation is the answer of the unbounded reference. *)
Lemma dup_refines t s0 ss : 0 <= s0 < width t -> Forall (fun s => 0 <= s < width t) ss ->
  fst (impl_run (dset_add t) (impl_first s0) ss) = fst (ref_run (width t) (ref_first s0) ss).
Proof. intros H0 HF. now apply sim_run; [apply sim_first|]. Qed.

(** * Accepting twice *)

Definition accepted (r : dup_result) : bool := match r with NEW | NEWEST => true | _ => false end.

(** In the reference, between resets an accepted position is never accepted
    again: the same sequence number needs a full turn of the newest number. *)
Definition is_reset (w : Z) (st : refstate) (s : Z) : bool :=
  (r_top st + circ_dist w s (r_top st) <? r_top st - 31) && (r_old st + 1 >? 8).

Fixpoint no_reset (w : Z) (st : refstate) (ss : list Z) : bool :=
  match ss with
  | [] => true
  | s :: ss' => negb (is_reset w st s) && no_reset w (snd (ref_add w st s)) ss'
  end.

Lemma ref_add_seen w st s : is_reset w st s = false ->
  (forall p, In p (r_seen st) -> In p (r_seen (snd (ref_add w st s)))) /\
  r_top st <= r_top (snd (ref_add w st s)).
Proof.
  unfold is_reset, ref_add. intros H. cbv zeta.
  set (p := r_top st + circ_dist w s (r_top st)) in *.
  destruct (p =? r_top st); [cbn; split; [auto|lia]|].
  destruct (Z.ltb_spec p (r_top st - 31)).
  { cbn [andb] in H. rewrite H. cbn. split; [auto|lia]. }
  destruct (inb p (r_seen st)); [cbn; split; [auto|lia]|].
  destruct (Z.ltb_spec p (r_top st)); cbn; (split; [auto|lia]).
Qed.

Lemma ref_run_seen w : forall ss st, no_reset w st ss = true ->
  (forall p, In p (r_seen st) -> In p (r_seen (snd (ref_run w st ss)))) /\
  r_top st <= r_top (snd (ref_run w st ss)).
Proof.
  induction ss as [|s ss IH]; intros st H; cbn [ref_run]; [cbn; split; [auto|lia]|].
  cbn [no_reset] in H. apply andb_true_iff in H. destruct H as [H1 H2].
  apply negb_true_iff in H1. apply ref_add_seen in H1. destruct H1 as [A B].
  destruct (ref_add w st s) as [ra st'] eqn:E. cbn [snd] in *.
  specialize (IH st' H2). destruct (ref_run w st' ss) as [rs st'']. cbn [snd] in *.
  destruct IH as [C D]. split; [auto|lia].
Qed.

Lemma ref_accept_position w st s : accepted (fst (ref_add w st s)) = true ->
  let p := r_top st + circ_dist w s (r_top st) in
  In p (r_seen (snd (ref_add w st s))) /\ p <= r_top (snd (ref_add w st s)) /\
  (is_reset w st s = false -> ~ In p (r_seen st) /\ r_top st - 31 <= p).
Proof.
  intros H p. unfold ref_add, is_reset in *. cbv zeta in *. fold p in H |- *.
  destruct (p =? r_top st); [discriminate|].
  destruct (Z.ltb_spec p (r_top st - 31)).
  { destruct (r_old st + 1 >? 8); [|discriminate]. cbn. split; [auto|]. split; [lia|discriminate]. }
  destruct (inb p (r_seen st)) eqn:I; [discriminate|].
  assert (~ In p (r_seen st)) by (rewrite <- inb_In, I; discriminate).
  destruct (Z.ltb_spec p (r_top st)); cbn; (split; [auto|]); (split; [lia|]); intros; (split; [assumption|lia]).
Qed.

Lemma ref_no_double_accept w st s mid :
  512 <= 2 * w ->
  accepted (fst (ref_add w st s)) = true ->
  let st1 := snd (ref_add w st s) in
  no_reset w st1 mid = true ->
  let st2 := snd (ref_run w st1 mid) in
  is_reset w st2 s = false ->
  accepted (fst (ref_add w st2 s)) = true ->
  r_top st1 - 31 + w <= r_top (snd (ref_add w st2 s)).
Proof.
  intros Hw A1 st1 N st2 R A2.
  destruct (ref_accept_position w st s A1) as (P1 & P2 & _). fold st1 in P1, P2.
  set (p1 := r_top st + circ_dist w s (r_top st)) in *.
  destruct (ref_accept_position w st2 s A2) as (Q1 & Q2 & Q3). specialize (Q3 R).
  set (p2 := r_top st2 + circ_dist w s (r_top st2)) in *. destruct Q3 as [Q3 Q4].
  destruct (ref_run_seen w mid st1 N) as [M1 M2]. fold st2 in M1, M2.
  assert (C1 : p1 mod w = s mod w) by (apply circ_dist_cong; lia).
  assert (C2 : p2 mod w = s mod w) by (apply circ_dist_cong; lia).
  assert (Hne : p2 <> p1) by (intros E; apply Q3; rewrite E; auto).
  assert (exists q, p2 = p1 + q * w) as [q Hq].
  { exists (p2 / w - p1 / w). pose proof (Z.div_mod p1 w ltac:(lia)). pose proof (Z.div_mod p2 w ltac:(lia)). nia. }
  assert (q <> 0) by (intros ->; lia).
  assert (q < 0 \/ 1 <= q) as [Hq0|Hq1] by lia.
  - exfalso. assert (p2 <= p1 - w) by nia. lia.
  - assert (p1 + w <= p2) by nia.
    assert (r_top st1 - 31 <= p1 \/ p1 = r_top st1).
    { subst st1. unfold ref_add in *. cbv zeta in *. fold p1 in P1, P2, A1 |- *.
      destruct (p1 =? r_top st); [discriminate|].
      destruct (Z.ltb_spec p1 (r_top st - 31)).
      { destruct (r_old st + 1 >? 8); [|discriminate]. cbn. lia. }
      destruct (inb p1 (r_seen st)); [discriminate|].
      destruct (Z.ltb_spec p1 (r_top st)); cbn; lia. }
    lia.
Qed.

(** * Resynchronisation (C12) *)

Definition too_old_for (t : dup_type) (cur s : Z) : Prop := circ_dist (width t) s cur < -31.

Lemma dup_test_too_old t e s set : too_old_for t (de_current e) s -> 0 <= de_too_old e <= 8 ->
  dup_test (dset_add t) e s set =
  if de_too_old e =? 8 then (NEWEST, impl_first s)
  else (TOO_OLD, {| de_history := de_history e; de_current := de_current e; de_too_old := de_too_old e + 1 |}).
Proof.
  unfold too_old_for; intros H Hc. unfold dup_test.
  destruct (Z.eqb_spec s (de_current e)) as [E|E].
  { exfalso. unfold circ_dist in H. rewrite E, Z.sub_diag, Z.mod_0_l in H
      by (destruct (width_cases t) as [W | [W | [W | W]]]; rewrite W; lia).
    destruct (width_cases t) as [W | [W | [W | W]]]; rewrite W in H; vm_compute in H; discriminate. }
  rewrite dseqno_circ. cbv zeta.
  destruct (Z.ltb_spec (circ_dist (width t) s (de_current e)) (-31)); [|lia].
  rewrite u16_id by (unfold is_u16; lia). unfold MAXIMUM_TOO_OLD.
  destruct (Z.gtb_spec (de_too_old e + 1) 8), (Z.eqb_spec (de_too_old e) 8); try lia; reflexivity.
Qed.

Lemma resync t : forall ss e, de_too_old e + Z.of_nat (length ss) = 8 -> 0 <= de_too_old e ->
  Forall (too_old_for t (de_current e)) ss ->
  forall s, too_old_for t (de_current e) s ->
  impl_run (dset_add t) e (ss ++ [s]) = (repeat TOO_OLD (length ss) ++ [NEWEST], impl_first s).
Proof.
  induction ss as [|x ss IH]; intros e Hl H0 HF s Hs; cbn [length app impl_run repeat] in *.
  - rewrite dup_test_too_old by (auto; lia). destruct (Z.eqb_spec (de_too_old e) 8); [reflexivity|lia].
  - inversion HF as [|? ? Hx HF']; subst. rewrite dup_test_too_old by (auto; lia).
    destruct (Z.eqb_spec (de_too_old e) 8); [lia|].
    rewrite IH by (cbn [de_too_old de_current]; auto; lia). reflexivity.
Qed.

Lemma dup_test_count_bound ds e s set r e' : 0 <= de_too_old e <= 8 ->
  dup_test ds e s set = (r, e') -> 0 <= de_too_old e' <= 8.
Proof.
  intros H. unfold dup_test, MAXIMUM_TOO_OLD. rewrite u16_id by (unfold is_u16; lia).
  destruct (s =? de_current e); [intros [= _ <-]; assumption|].
  cbv zeta. destruct (_ <? -31).
  { destruct (Z.gtb_spec (de_too_old e + 1) 8); intros [= _ <-]; cbn; lia. }
  destruct (_ <=? 0).
  { destruct (negb _); intros [= _ <-]; cbn; lia. }
  intros [= _ <-]. destruct set; cbn; lia.
Qed.

(** * Keys (C10): senders do not influence each other *)
Section Keys.
Context {K : Type} (keqb : K -> K -> bool).
Hypothesis keqb_eq : forall a b, keqb a b = true <-> a = b.

Lemma keqb_refl k : keqb k k = true.
Proof. now apply keqb_eq. Qed.
Lemma keqb_neq a b : a <> b -> keqb a b = false.
Proof. intros H. destruct (keqb a b) eqn:E; [|reflexivity]. apply keqb_eq in E. now subst. Qed.

Lemma dfind_update_same m k e : dfind keqb (dupdate keqb m k e) k = Some e.
Proof.
  induction m as [|[k' e'] m IH]; cbn [dupdate dfind].
  - now rewrite keqb_refl.
  - destruct (keqb k k') eqn:E; cbn [dfind]; rewrite E; auto.
Qed.

Lemma dfind_update_other m k k2 e : k2 <> k -> dfind keqb (dupdate keqb m k e) k2 = dfind keqb m k2.
Proof.
  intros Hn. induction m as [|[k' e'] m IH]; cbn [dupdate dfind].
  - now rewrite keqb_neq.
  - destruct (keqb k k') eqn:E; cbn [dfind].
    + apply keqb_eq in E. subst k'. now rewrite keqb_neq.
    + destruct (keqb k2 k'); auto.
Qed.

Lemma dfind_remove_other m k k2 : k2 <> k -> dfind keqb (dremove keqb m k) k2 = dfind keqb m k2.
Proof.
  intros Hn. induction m as [|[k' e'] m IH]; cbn [dremove dfind]; [reflexivity|].
  destruct (keqb k k') eqn:E; cbn [dfind].
  - apply keqb_eq in E. subst k'. now rewrite keqb_neq.
  - destruct (keqb k2 k'); auto.
Qed.

Definition ev_key (ev : @devent K) : K := match ev with Add k _ _ | Test k _ | Expire k => k end.

Lemma dstep_other ds m ev k : ev_key ev <> k -> dfind keqb (snd (dstep keqb ds m ev)) k = dfind keqb m k.
Proof.
  intros H. destruct ev as [k1 s mem|k1 s|k1]; cbn [ev_key dstep] in *.
  - unfold entry_add. destruct (dfind keqb m k1).
    + destruct (dup_test _ _ _ _). cbn [snd]. apply dfind_update_other. congruence.
    + destruct mem; cbn [snd]; [apply dfind_update_other; congruence|reflexivity].
  - unfold entry_test. destruct (dfind keqb m k1); [|reflexivity].
    destruct (dup_test _ _ _ _). cbn [snd]. apply dfind_update_other. congruence.
  - cbn [snd]. apply dfind_remove_other. congruence.
Qed.

(** The additions for key [k] in a history, in order. *)
Fixpoint adds_of (k : K) (evs : list (@devent K)) : list Z :=
  match evs with
  | [] => []
  | Add k' s _ :: evs' => if keqb k k' then s :: adds_of k evs' else adds_of k evs'
  | _ :: evs' => adds_of k evs'
  end.
(** The answers given to the additions for key [k]. *)
Fixpoint answers_of (k : K) (evs : list (@devent K)) (rs : list (option dup_result)) : list dup_result :=
  match evs, rs with
  | Add k' _ _ :: evs', Some r :: rs' => if keqb k k' then r :: answers_of k evs' rs' else answers_of k evs' rs'
  | _ :: evs', _ :: rs' => answers_of k evs' rs'
  | _, _ => []
  end.
(** No test and no expiry for key [k]. *)
Definition quiet (k : K) (ev : @devent K) : Prop :=
  match ev with Add _ _ _ => True | Test k' _ => k' <> k | Expire k' => k' <> k end.

Lemma answers_impl ds k : forall evs m e, dfind keqb m k = Some e -> Forall (quiet k) evs ->
  answers_of k evs (fst (drun keqb ds m evs)) = fst (impl_run ds e (adds_of k evs)).
Proof.
  induction evs as [|ev evs IH]; intros m e Hm HF; [reflexivity|].
  inversion HF as [|? ? Hq HF']; subst. cbn [drun].
  destruct (dstep keqb ds m ev) as [r m'] eqn:E.
  destruct (drun keqb ds m' evs) as [rs m''] eqn:E2. cbn [fst].
  destruct ev as [k' s mem|k' s|k']; cbn [answers_of adds_of quiet] in *.
  - cbn [dstep] in E. destruct (keqb k k') eqn:Ek.
    + apply keqb_eq in Ek. subst k'. unfold entry_add in E. rewrite Hm in E.
      destruct (dup_test ds e s true) as [r0 e'] eqn:Et.
      injection E as <- <-. cbn [impl_run]. rewrite Et.
      specialize (IH _ e' (dfind_update_same m k e') HF'). rewrite E2 in IH. cbn [fst] in IH.
      destruct (impl_run ds e' (adds_of k evs)). cbn [fst] in *. now rewrite IH.
    + destruct (entry_add keqb ds m k' s mem) as [r0 m0] eqn:Ea. injection E as <- <-.
      assert (Hk : k' <> k) by (intros ->; rewrite keqb_refl in Ek; discriminate).
      pose proof (dstep_other ds m (Add k' s mem) k Hk) as Ho. cbn [dstep] in Ho. rewrite Ea in Ho. cbn [snd] in Ho.
      specialize (IH m0 e). rewrite Ho, E2 in IH. cbn [fst] in IH. now apply IH.
  - pose proof (dstep_other ds m (Test k' s) k Hq) as Ho. rewrite E in Ho. cbn [snd] in Ho.
    specialize (IH m' e). rewrite Ho, E2 in IH. cbn [fst] in IH. now apply IH.
  - pose proof (dstep_other ds m (Expire k') k Hq) as Ho. rewrite E in Ho. cbn [snd] in Ho.
    specialize (IH m' e). rewrite Ho, E2 in IH. cbn [fst] in IH. now apply IH.
Qed.

(** Full API statement: after the first addition for [k], every answer for [k]
    is the reference's answer, whatever happens to other senders. *)
Lemma dup_api t m k s0 evs :
  dfind keqb m k = None -> 0 <= s0 < width t ->
  Forall (quiet k) evs -> Forall (fun s => 0 <= s < width t) (adds_of k evs) ->
  answers_of k (Add k s0 true :: evs) (fst (drun keqb (dset_add t) m (Add k s0 true :: evs)))
  = FIRST :: fst (ref_run (width t) (ref_first s0) (adds_of k evs)).
Proof.
  intros Hm Hs HF HR. cbn [drun dstep]. unfold entry_add. rewrite Hm.
  change {| de_history := 1; de_current := s0; de_too_old := 0 |} with (impl_first s0).
  destruct (drun keqb _ (dupdate keqb m k _) evs) as [rs m''] eqn:E. cbn [fst answers_of].
  rewrite keqb_refl. f_equal. rewrite <- dup_refines by assumption.
  rewrite <- (answers_impl (dset_add t) k evs _ (impl_first s0) (dfind_update_same m k _) HF).
  now rewrite E.
Qed.
End Keys.
