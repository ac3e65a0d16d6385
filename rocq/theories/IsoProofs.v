(** Proofs about isonumber.c. *)
From Verif Require Import Base StrBase BufLemmas IsoModel IsoSpec.

(** ** Digits *)
Lemma u64_id z : 0 <= z <= U64_MAX -> u64 z = z.
Proof. unfold U64_MAX, u64. intros. apply Z.mod_small. lia. Qed.
Lemma isdigit_iff c : isdigit c = true <-> 48 <= c <= 57.
Proof. unfold isdigit. rewrite andb_true_iff, !Z.leb_le. tauto. Qed.
Lemma digits_forallb s : digits s <-> forallb isdigit s = true.
Proof.
  unfold digits. rewrite forallb_forall, Forall_forall. split; intros H x X; [apply isdigit_iff|apply isdigit_iff]; auto.
Qed.
Lemma zlen_nonneg {A} (l : list A) : 0 <= zlen l. Proof. unfold zlen. lia. Qed.
Lemma zlen_cons {A} (x : A) l : zlen (x :: l) = zlen l + 1. Proof. unfold zlen. cbn [length]. lia. Qed.
Lemma zlen_app {A} (a b : list A) : zlen (a ++ b) = zlen a + zlen b. Proof. unfold zlen. rewrite app_length. lia. Qed.
Lemma digits_val_acc s : forall a, digits_val s a = a * 10 ^ zlen s + place_val s.
Proof.
  induction s as [|c s IH]; intros a.
  - unfold digits_val. change (10 ^ zlen []) with 1. cbn [fold_left place_val]. lia.
  - change (digits_val (c :: s) a) with (digits_val s (a * 10 + (c - 48))). rewrite IH, zlen_cons. cbn [place_val].
    rewrite Z.pow_add_r by (try lia; apply zlen_nonneg). lia.
Qed.
Lemma digits_val_place s : digits_val s 0 = place_val s. Proof. rewrite digits_val_acc. lia. Qed.
Lemma place_val_app a b : place_val (a ++ b) = place_val a * 10 ^ zlen b + place_val b.
Proof.
  induction a as [|c a IH]; cbn [app place_val]; [lia|]. rewrite IH, zlen_app, Z.pow_add_r by apply zlen_nonneg. lia.
Qed.
Lemma place_val_bound s : digits s -> 0 <= place_val s < 10 ^ zlen s.
Proof.
  induction 1 as [|c s C D IH]; [change (10 ^ zlen []) with 1; cbn; lia|]. cbn [place_val]. rewrite zlen_cons, Z.pow_add_r by (try lia; apply zlen_nonneg).
  change (10 ^ 1) with 10. nia.
Qed.

Lemma place_val_one c : place_val [c] = c - 48. Proof. cbn [place_val]. change (10 ^ zlen []) with 1. lia. Qed.

(** the digits printed by %PRIu64 *)
Lemma dec_digits_spec : forall f n acc, (0 < f)%nat -> 0 <= n < 10 ^ Z.of_nat f ->
  exists ds, dec_digits f n acc = ds ++ acc /\ ds <> [] /\ digits ds /\ place_val ds = n /\ zlen ds <= Z.of_nat f.
Proof.
  induction f as [|f IH]; intros n acc F B; [lia|]. cbn [dec_digits].
  assert (0 <= n mod 10 < 10) by (apply Z.mod_pos_bound; lia). pose proof (Z.div_mod n 10).
  destruct (Z.eqb_spec (n / 10) 0) as [E|E].
  - exists [48 + n mod 10]. split; [reflexivity|]. split; [discriminate|]. split; [repeat constructor; lia|].
    split; [rewrite place_val_one; lia|]. unfold zlen. cbn [length]. lia.
  - rewrite Nat2Z.inj_succ, Z.pow_succ_r in B by lia.
    assert (0 < n / 10) by (assert (0 <= n / 10) by (apply Z.div_pos; lia); lia).
    assert (n / 10 < 10 ^ Z.of_nat f) by (apply Z.div_lt_upper_bound; lia).
    assert (0 < f)%nat by (destruct f; [cbn in *; lia|lia]).
    destruct (IH (n / 10) (48 + n mod 10 :: acc)) as (ds & E1 & N & D & V & L); auto; [lia|].
    exists (ds ++ [48 + n mod 10]). split; [rewrite E1, <- app_assoc; reflexivity|].
    split; [destruct ds; discriminate|]. split; [apply Forall_app; split; [exact D|repeat constructor; lia]|].
    split; [rewrite place_val_app, place_val_one, V; change (10 ^ zlen [_]) with 10; lia|]. rewrite zlen_app. unfold zlen in *. cbn [length]. lia.
Qed.
Lemma dec_str_spec n : 0 <= n <= U64_MAX -> dec_str n <> [] /\ digits (dec_str n) /\ place_val (dec_str n) = n /\ zlen (dec_str n) <= 20.
Proof.
  intros B. destruct (dec_digits_spec 20 n []) as (ds & E & N & D & V & L); [lia| |].
  - unfold U64_MAX in B. change (10 ^ Z.of_nat 20) with 100000000000000000000. lia.
  - unfold dec_str. rewrite E, app_nil_r. auto.
Qed.

(** ** Text to number *)
Lemma nondigit_cons c r : isdigit c = false -> take_while isdigit (c :: r) = [] /\ drop_while isdigit (c :: r) = c :: r.
Proof. intros H. cbn. now rewrite H. Qed.
Lemma strtoull_digits w r : w <> [] -> digits w -> (forall c q, r = c :: q -> isdigit c = false) ->
  strtoull10 (w ++ r) = if place_val w >? U64_MAX then None else Some (place_val w, r).
Proof.
  intros N D R. apply digits_forallb in D as D'. destruct w as [|c w]; [contradiction|].
  assert (48 <= c <= 57) as C by (inversion D; auto).
  unfold strtoull10. cbn [app drop_while]. assert (isspace c = false) as ->.
  { unfold isspace. destruct (Z.eqb_spec c 32); [lia|]. destruct (Z.leb_spec 9 c); [|lia]. destruct (Z.leb_spec c 13); [lia|]. reflexivity. }
  destruct (Z.eqb_spec c 45); [lia|]. destruct (Z.eqb_spec c 43); [lia|]. cbn [orb].
  change (c :: w ++ r) with ((c :: w) ++ r). rewrite take_while_app_all, drop_while_app_all by exact D'.
  rewrite (take_while_none isdigit r R), (drop_while_none isdigit r R), app_nil_r. cbn iota. rewrite digits_val_place. reflexivity.
Qed.
Lemma frac_loop_spec f : digits f -> forall r num k, (forall c q, r = c :: q -> isdigit c = false) -> 0 <= num -> 0 <= k ->
  num * 10 ^ zlen f + place_val f <= U64_MAX -> 10 ^ (k + zlen f) <= U64_MAX ->
  frac_loop (f ++ r) num (10 ^ k) = (num * 10 ^ zlen f + place_val f, 10 ^ (k + zlen f), r).
Proof.
  induction 1 as [|c f C F IH]; intros r num k R N K B1 B2.
  - cbn [app place_val]. change (zlen []) with 0. replace (num * 10 ^ 0 + 0) with num by (cbn; lia). rewrite Z.add_0_r.
    destruct r as [|c q]; [reflexivity|]. cbn [frac_loop]. now rewrite (R c q eq_refl).
  - cbn [app frac_loop]. assert (isdigit c = true) as -> by now apply isdigit_iff.
    pose proof (place_val_bound f F) as P. rewrite zlen_cons in *. cbn [place_val] in *. pose proof (zlen_nonneg f) as Z0.
    rewrite (Z.pow_add_r 10 (zlen f) 1) in * by lia. change (10 ^ 1) with 10 in *.
    assert (1 <= 10 ^ zlen f) as P1 by (pose proof (Z.pow_pos_nonneg 10 (zlen f)); lia).
    replace (k + (zlen f + 1)) with ((k + 1) + zlen f) in * by lia.
    assert (10 ^ (k + 1) <= U64_MAX).
    { rewrite Z.pow_add_r in B2 by lia. pose proof (Z.pow_pos_nonneg 10 (k + 1)). nia. }
    assert (10 ^ (k + 1) = 10 ^ k * 10) as E by (rewrite Z.pow_add_r by lia; reflexivity).
    assert (0 < 10 ^ k) by (apply Z.pow_pos_nonneg; lia).
    rewrite (u64_id (num * 10)) by nia. rewrite (u64_id (num * 10 + (c - 48))) by nia.
    rewrite <- E, u64_id by lia. rewrite IH; auto; try nia. f_equal. f_equal. nia.
Qed.
Lemma pad_loop_done fuel num fs scaling : scaling <= fs -> pad_loop fuel num fs scaling = Some (num, fs).
Proof. intros H. destruct fuel; cbn; destruct (Z.ltb_spec fs scaling); try lia; reflexivity. Qed.
Lemma pad_loop_spec : forall fuel num d s, 0 <= d -> d <= s -> s - d <= Z.of_nat fuel -> 0 <= num -> num * 10 ^ (s - d) <= U64_MAX ->
  10 ^ s <= U64_MAX -> pad_loop fuel num (10 ^ d) (10 ^ s) = Some (num * 10 ^ (s - d), 10 ^ s).
Proof.
  induction fuel as [|fuel IH]; intros num d s D L F N B1 B2.
  - replace s with d in * by lia. rewrite pad_loop_done by lia. rewrite Z.sub_diag. cbn. do 2 f_equal. lia.
  - destruct (Z.eq_dec d s) as [->|Ne].
    + rewrite pad_loop_done by lia. rewrite Z.sub_diag. cbn. do 2 f_equal. lia.
    + cbn [pad_loop]. assert (10 ^ d < 10 ^ s) by (apply Z.pow_lt_mono_r; lia). destruct (Z.ltb_spec (10 ^ d) (10 ^ s)); [|lia].
      assert (10 ^ (s - d) = 10 * 10 ^ (s - (d + 1))) as E by (rewrite <- Z.pow_succ_r by lia; f_equal; lia).
      assert (10 ^ (d + 1) = 10 ^ d * 10) as E2 by (rewrite Z.pow_add_r by lia; reflexivity).
      assert (10 ^ (d + 1) <= 10 ^ s) by (apply Z.pow_le_mono_r; lia).
      assert (1 <= 10 ^ (s - (d + 1))) by (pose proof (Z.pow_pos_nonneg 10 (s - (d + 1))); lia).
      assert (0 < 10 ^ d) by (apply Z.pow_pos_nonneg; lia).
      rewrite (u64_id (num * 10)) by nia. rewrite <- E2, u64_id by lia. rewrite IH; try lia; try nia.
      do 2 f_equal. rewrite E. lia.
Qed.
(** the loop of isonumber.c:211-219 needs at most seven rounds *)
Lemma cut_fuel num fs factor scaling m : 0 <= fs <= U64_MAX -> cut_loop (7 + m) num fs factor scaling = cut_loop 7 num fs factor scaling.
Proof.
  intros B. assert (forall n num fs factor, 0 <= fs < 1000 ^ Z.of_nat n -> forall m, cut_loop (n + m) num fs factor scaling = cut_loop n num fs factor scaling) as G.
  { clear. induction n as [|n IH]; intros num fs factor B m.
    - cbn [Nat.add]. cbn in B. destruct m; auto. cbn [cut_loop]. destruct (Z.leb_spec 1000 fs); [lia|]. now rewrite andb_false_r.
    - cbn [Nat.add cut_loop]. destruct ((scaling <? fs) && (1000 <=? fs)) eqn:E; auto.
      assert (0 <= fs / 1000 < 1000 ^ Z.of_nat n).
      { rewrite Nat2Z.inj_succ, Z.pow_succ_r in B by lia. split; [apply Z.div_pos; lia|apply Z.div_lt_upper_bound; lia]. }
      destruct (1 <? factor); auto. }
  apply G. unfold U64_MAX in B. change (1000 ^ Z.of_nat 7) with 1000000000000000000000. lia.
Qed.
Lemma p1000 j : 0 <= j -> 1000 ^ j = 10 ^ (3 * j).
Proof. intros. rewrite Z.pow_mul_r by lia. reflexivity. Qed.
Lemma cut_loop_spec : forall n num k p s, 0 <= k -> 0 <= p -> 0 <= s -> (k <= s + 3 * p \/ k - 3 * p < 3) ->
  exists j, 0 <= j <= p /\ 3 * j <= k /\ cut_loop n num (10 ^ k) (1000 ^ p) (10 ^ s) = (num, 10 ^ (k - 3 * j), 1000 ^ (p - j)).
Proof.
  induction n as [|n IH]; intros num k p s K P S0 C.
  - exists 0. rewrite !Z.sub_0_r. cbn. split; [lia|]. split; [lia|reflexivity].
  - cbn [cut_loop]. destruct ((10 ^ s <? 10 ^ k) && (1000 <=? 10 ^ k)) eqn:E.
    + apply andb_true_iff in E. destruct E as (E1 & E2). apply Z.ltb_lt in E1. apply Z.leb_le in E2.
      assert (s < k) by (destruct (Z.lt_ge_cases s k); auto; assert (10 ^ k <= 10 ^ s) by (apply Z.pow_le_mono_r; lia); lia). assert (3 <= k) by (destruct (Z.le_gt_cases 3 k); auto; assert (10 ^ k < 10 ^ 3) by (apply Z.pow_lt_mono_r; lia); change (10 ^ 3) with 1000 in *; lia).
      assert (1 <= p) by lia.
      assert (1 < 1000 ^ p) as L by (apply Z.pow_gt_1; lia). destruct (Z.ltb_spec 1 (1000 ^ p)); [|lia].
      assert (10 ^ k / 1000 = 10 ^ (k - 3)) as ->.
      { replace k with ((k - 3) + 3) at 1 by lia. rewrite Z.pow_add_r by lia. change (10 ^ 3) with 1000. apply Z.div_mul. lia. }
      assert (1000 ^ p / 1000 = 1000 ^ (p - 1)) as ->.
      { replace p with ((p - 1) + 1) at 1 by lia. rewrite Z.pow_add_r by lia. change (1000 ^ 1) with 1000. apply Z.div_mul. lia. }
      destruct (IH num (k - 3) (p - 1) s) as (j & J1 & J2 & ->); try lia.
      exists (j + 1). split; [lia|]. split; [lia|]. replace (k - 3 * (j + 1)) with (k - 3 - 3 * j) by lia. replace (p - (j + 1)) with (p - 1 - j) by lia. reflexivity.
    + exists 0. rewrite !Z.sub_0_r. split; [lia|]. split; [lia|reflexivity].
Qed.

Lemma prefix_bound pre p : prefix pre p -> 0 <= p <= 6.
Proof. destruct 1; lia. Qed.
Lemma spaces_drop sp r : Forall (fun c => c = 32) sp -> (forall c q, r = c :: q -> c <> 32) ->
  drop_while (fun c => c =? 32) (sp ++ r) = r.
Proof.
  induction 1 as [|c sp -> S IH]; intros R; cbn [app drop_while].
  - apply drop_while_none. intros c q E. apply Z.eqb_neq. eauto.
  - change (32 =? 32) with true. cbn iota. auto.
Qed.
Lemma iso_factor_spec sp pre p : Forall (fun c => c = 32) sp -> prefix pre p -> iso_factor (sp ++ pre) = Some (1000 ^ p).
Proof.
  intros S P. unfold iso_factor. rewrite spaces_drop; auto.
  - destruct P; reflexivity.
  - intros c q E ->. destruct P; vm_compute in E; discriminate.
Qed.

(** exact conversion *)
Lemma iso_exact fuel t n d p s : IsoText t n d p -> 0 <= s <= 19 -> d <= 19 -> (20 <= fuel)%nat ->
  (d <= s + 3 * p \/ d - 3 * p < 3) -> n * 10 ^ (Z.max d s - d) * 1000 ^ p * 10 ^ s <= U64_MAX ->
  iso_to_u64 fuel t (10 ^ s) = IOk (iso_value n d p (10 ^ s)).
Proof.
  intros (w & f & point & sp & pre & -> & W & DW & DF & PT & SP & PRE & -> & ->) S0 D19 F C B.
  pose proof (prefix_bound _ _ PRE) as P6. pose proof (zlen_nonneg f) as Z0. set (d := zlen f) in *. set (n := place_val (w ++ f)) in *.
  assert (0 <= place_val w) as W0 by (pose proof (place_val_bound w DW); lia).
  assert (0 <= place_val f) as F0 by (pose proof (place_val_bound f DF); lia).
  assert (n = place_val w * 10 ^ d + place_val f) as En by apply place_val_app.
  assert (0 < 10 ^ d) by (apply Z.pow_pos_nonneg; lia). assert (0 < 10 ^ s) by (apply Z.pow_pos_nonneg; lia).
  assert (0 < 1000 ^ p) by (apply Z.pow_pos_nonneg; lia). set (k := Z.max d s) in *.
  assert (0 < 10 ^ (k - d)) by (apply Z.pow_pos_nonneg; lia).
  assert (n * 10 ^ (k - d) * 1000 ^ p <= U64_MAX) as B2.
  { assert (0 <= n * 10 ^ (k - d) * 1000 ^ p) by (apply Z.mul_nonneg_nonneg; [apply Z.mul_nonneg_nonneg|]; nia). nia. }
  assert (n * 10 ^ (k - d) <= U64_MAX) as B3.
  { assert (0 <= n * 10 ^ (k - d)) by nia. nia. }
  assert (n <= U64_MAX) as B4 by nia. assert (place_val w <= U64_MAX) as B5 by nia.
  assert (10 ^ d <= U64_MAX) as B6.
  { assert (10 ^ d <= 10 ^ 19) by (apply Z.pow_le_mono_r; lia). change (10 ^ 19) with 10000000000000000000 in *. unfold U64_MAX. lia. }
  assert (10 ^ s <= U64_MAX) as B7.
  { assert (10 ^ s <= 10 ^ 19) by (apply Z.pow_le_mono_r; lia). change (10 ^ 19) with 10000000000000000000 in *. unfold U64_MAX. lia. }
  unfold iso_to_u64. rewrite strtoull_digits; auto.
  2:{ intros c q E. destruct PT as [(-> & _)| ->]; [|injection E as <- _; reflexivity].
      cbn [app] in E. destruct sp as [|x sp]; [|inversion SP; subst; injection E as <- _; reflexivity].
      cbn [app] in E. destruct PRE; vm_compute in E; try discriminate E; injection E as <- _; reflexivity. }
  rewrite Z.gtb_ltb. destruct (Z.ltb_spec U64_MAX (place_val w)); [lia|].
  assert (forall rest, rest = sp ++ pre -> match pad_loop fuel n (10 ^ d) (10 ^ s) with
      | None => IHang
      | Some (num, fs) =>
        match iso_factor rest with
        | None => IErr
        | Some factor =>
          let '(num, fs, factor) := cut_loop 7 num fs factor (10 ^ s) in
          if num >? U64_MAX / factor then IErr
          else if fs =? 0 then IFault
          else IOk (u64 (u64 (num * factor) * (10 ^ s)) / fs)
        end
      end = IOk (iso_value n d p (10 ^ s))) as MAIN.
  { intros rest ->.
    assert (pad_loop fuel n (10 ^ d) (10 ^ s) = Some (n * 10 ^ (k - d), 10 ^ k)) as ->.
    { destruct (Z.le_ge_cases d s) as [L|L].
      - replace k with s in * by lia. apply pad_loop_spec; nia.
      - replace k with d in * by lia. rewrite Z.sub_diag. change (10 ^ 0) with 1. rewrite Z.mul_1_r.
        apply pad_loop_done. apply Z.pow_le_mono_r; lia. }
    rewrite (iso_factor_spec sp pre p SP PRE).
    destruct (cut_loop_spec 7 (n * 10 ^ (k - d)) k p s) as (j & J1 & J2 & ->); try lia.
    set (num := n * 10 ^ (k - d)) in *. assert (0 <= num) by nia.
    assert (1000 ^ p = 1000 ^ (p - j) * 1000 ^ j) as EP by (rewrite <- Z.pow_add_r by lia; f_equal; lia).
    assert (10 ^ k = 10 ^ (k - 3 * j) * 1000 ^ j) as EK by (rewrite p1000, <- Z.pow_add_r by lia; f_equal; lia).
    assert (0 < 1000 ^ j) by (apply Z.pow_pos_nonneg; lia). assert (0 < 1000 ^ (p - j)) by (apply Z.pow_pos_nonneg; lia).
    assert (0 < 10 ^ (k - 3 * j)) by (apply Z.pow_pos_nonneg; lia).
    assert (num * 1000 ^ (p - j) <= num * 1000 ^ p) by nia.
    assert (0 <= num * 1000 ^ (p - j)) by nia.
    rewrite Z.gtb_ltb. destruct (Z.ltb_spec (U64_MAX / 1000 ^ (p - j)) num) as [X|X].
    { exfalso. assert (num <= U64_MAX / 1000 ^ (p - j)) by (apply Z.div_le_lower_bound; lia). lia. }
    destruct (Z.eqb_spec (10 ^ (k - 3 * j)) 0); [lia|].
    rewrite (u64_id (num * 1000 ^ (p - j))) by lia. rewrite u64_id by nia. f_equal. unfold iso_value.
    rewrite <- (Z.div_mul_cancel_r _ (10 ^ (k - 3 * j)) (1000 ^ j)) by lia. rewrite <- EK.
    replace (num * 1000 ^ (p - j) * 10 ^ s * 1000 ^ j) with (num * 1000 ^ p * 10 ^ s) by (rewrite EP; ring).
    assert (10 ^ k = 10 ^ d * 10 ^ (k - d)) as -> by (rewrite <- Z.pow_add_r by lia; f_equal; lia).
    unfold num. replace (n * 10 ^ (k - d) * 1000 ^ p * 10 ^ s) with (n * 1000 ^ p * 10 ^ s * 10 ^ (k - d)) by ring.
    apply Z.div_mul_cancel_r; lia. }
  destruct PT as [(-> & ->)| ->].
  - cbn [app]. replace n with (place_val w) in * by (unfold n; rewrite app_nil_r; reflexivity). change d with 0 in *. change (10 ^ 0) with 1 in *.
    destruct (sp ++ pre) as [|c r] eqn:ER.
    + apply app_eq_nil in ER. destruct ER as (-> & ->). inversion PRE; subst. clear MAIN.
      destruct (Z.eqb_spec (10 ^ s) 0); [lia|]. change (1000 ^ 0) with 1 in *.
      rewrite Z.gtb_ltb. destruct (Z.ltb_spec (U64_MAX / 10 ^ s) (place_val w)) as [X|X].
      { exfalso. assert (place_val w <= U64_MAX / 10 ^ s) by (apply Z.div_le_lower_bound; nia). lia. }
      rewrite u64_id by nia. f_equal. unfold iso_value. change (1000 ^ 0) with 1. change (10 ^ 0) with 1. rewrite Z.div_1_r. lia.
    + destruct (Z.eqb_spec c 46) as [->|N].
      * exfalso. destruct sp as [|x sp]; cbn [app] in ER; [destruct PRE; vm_compute in ER; discriminate|].
        inversion SP; subst; discriminate.
      * apply MAIN. reflexivity.
  - cbn [app]. change (46 =? 46) with true. cbn iota. change 1 with (10 ^ 0) at 1. rewrite frac_loop_spec; auto; try (fold d; rewrite ?Z.add_0_l; lia).
    + fold d. rewrite <- En. rewrite Z.add_0_l. apply MAIN. reflexivity.
    + intros c q E. destruct sp as [|x sp]; [|inversion SP; subst; injection E as <- _; reflexivity].
      cbn [app] in E. destruct PRE; vm_compute in E; try discriminate E; injection E as <- _; reflexivity.
Qed.

(** ** Number to text *)
Definition idx_of (f : bytes) (idx l : Z) : Z := match f with [] => idx | _ => l + zlen f end.
Lemma frac_digits_spec : forall k n S out idx, 1 <= S -> S * 10 <= U64_MAX + 1 -> 0 <= n ->
  exists f g, frac_digits k n S out idx = Some (out ++ f ++ g, idx_of f idx (zlen out)) /\ digits f /\ zlen f <= Z.of_nat k /\
    (f <> [] -> last f 48 <> 48) /\ (n mod S) * 10 ^ Z.of_nat k / S = place_val f * 10 ^ (Z.of_nat k - zlen f).
Proof.
  induction k as [|k IH]; intros n S out idx S1 S2 N; cbn [frac_digits];
    assert (0 <= n mod S < S) as R by (apply Z.mod_pos_bound; lia); destruct (Z.eqb_spec (n mod S) 0) as [E|E].
  1, 2: exists [], []; cbn [app idx_of place_val]; rewrite app_nil_r; split; [reflexivity|]; split; [constructor|]; split; [unfold zlen; cbn; lia|];
      split; [congruence|]; change (Z.of_nat 0) with 0; change (10 ^ 0) with 1; rewrite Z.mul_1_r; rewrite Z.div_small by lia; lia.
  - exists [], []. cbn [app idx_of place_val]. rewrite app_nil_r. split; [reflexivity|]. split; [constructor|]. split; [unfold zlen; cbn; lia|].
    split; [congruence|]. rewrite E. rewrite Z.mul_0_l, Z.div_0_l by lia. lia.
  - rewrite u64_id by lia. set (n1 := n mod S * 10). assert (0 <= n1 / S < 10) as PR.
    { split; [apply Z.div_pos; lia|apply Z.div_lt_upper_bound; lia]. }
    rewrite Z.geb_leb. destruct (Z.leb_spec 10 (n1 / S)); [lia|].
    destruct (IH n1 S (out ++ [48 + n1 / S]) (if n1 / S =? 0 then idx else zlen (out ++ [48 + n1 / S]))) as (f & g & E1 & D & L & LA & V); auto; [lia|].
    rewrite E1. pose proof (zlen_nonneg f) as Z0.
    assert (n mod S * 10 ^ Z.of_nat (Datatypes.S k) / S = n1 / S * 10 ^ Z.of_nat k + place_val f * 10 ^ (Z.of_nat k - zlen f)) as V'.
    { rewrite <- V. rewrite Nat2Z.inj_succ, Z.pow_succ_r by lia. replace (n mod S * (10 * 10 ^ Z.of_nat k)) with (n1 * 10 ^ Z.of_nat k) by (unfold n1; ring).
      rewrite (Z.div_mod n1 S) at 1 by lia.
      replace ((S * (n1 / S) + n1 mod S) * 10 ^ Z.of_nat k) with (n1 mod S * 10 ^ Z.of_nat k + n1 / S * 10 ^ Z.of_nat k * S) by ring.
      rewrite Z.div_add by lia. lia. }
    rewrite V'. destruct f as [|c f]; [destruct (Z.eqb_spec (n1 / S) 0) as [Z|Z]|].
    + exists [], (48 + n1 / S :: g). cbn [app idx_of place_val]. split; [rewrite <- app_assoc; reflexivity|]. split; [constructor|].
      split; [unfold zlen; cbn; lia|]. split; [congruence|]. rewrite Z. lia.
    + exists [48 + n1 / S], g. cbn [app idx_of]. rewrite zlen_app. split; [rewrite <- app_assoc; reflexivity|]. split; [repeat constructor; lia|].
      split; [unfold zlen; cbn [length]; lia|]. split; [intros _; cbn; lia|]. rewrite place_val_one. cbn [place_val]. change (zlen [_]) with 1.
      replace (Z.of_nat (Datatypes.S k) - 1) with (Z.of_nat k) by lia. lia.
    + exists (48 + n1 / S :: c :: f), g. cbn [app idx_of]. split; [rewrite <- app_assoc; cbn [app]; do 2 f_equal; rewrite zlen_app, !zlen_cons; change (zlen []) with 0; lia|].
      split; [constructor; [lia|exact D]|]. rewrite (zlen_cons (48 + n1 / S)). split; [lia|]. split; [intros _; apply LA; discriminate|].
      change (place_val (48 + n1 / S :: c :: f)) with ((48 + n1 / S - 48) * 10 ^ zlen (c :: f) + place_val (c :: f)).
      replace (Z.of_nat (Datatypes.S k) - (zlen (c :: f) + 1)) with (Z.of_nat k - zlen (c :: f)) by lia.
      rewrite Z.mul_add_distr_r. rewrite <- Z.mul_assoc, <- Z.pow_add_r by lia.
      replace (zlen (c :: f) + (Z.of_nat k - zlen (c :: f))) with (Z.of_nat k) by lia. lia.
Qed.

Lemma large_loop_spec : forall sym number scaling, 1 <= scaling <= number -> number <= U64_MAX ->
  exists j, (j <= length sym)%nat /\ large_loop sym number scaling = (skipn j sym, scaling * 1000 ^ Z.of_nat j) /\
    scaling * 1000 ^ Z.of_nat j <= number /\ ((j < length sym)%nat -> number < scaling * 1000 ^ (Z.of_nat j + 1)).
Proof.
  induction sym as [|c sym IH]; intros number scaling B U; cbn [large_loop].
  - exists O. cbn [length skipn]. change (1000 ^ Z.of_nat 0) with 1. rewrite Z.mul_1_r. split; [lia|]. split; [reflexivity|]. split; lia.
  - rewrite Z.geb_leb. destruct (Z.leb_spec scaling (number / 1000)) as [L|L].
    + assert (scaling * 1000 <= number).
      { pose proof (Z.mul_div_le number 1000). lia. }
      rewrite u64_id by lia. destruct (IH number (scaling * 1000)) as (j & J1 & -> & J2 & J3); [lia|lia|].
      exists (Datatypes.S j). cbn [length skipn]. rewrite Nat2Z.inj_succ, Z.pow_succ_r by lia. split; [lia|]. split; [f_equal; ring|]. split; [lia|].
      intros LL. specialize (J3 ltac:(lia)). replace (Z.succ (Z.of_nat j) + 1) with (Z.succ (Z.of_nat j + 1)) by lia. rewrite Z.pow_succ_r by lia. lia.
    + exists O. cbn [length skipn]. change (1000 ^ Z.of_nat 0) with 1. rewrite Z.mul_1_r. split; [lia|]. split; [reflexivity|]. split; [lia|].
      intros _. change (1000 ^ (Z.of_nat 0 + 1)) with 1000. pose proof (Z.mod_pos_bound number 1000). pose proof (Z.div_mod number 1000). lia.
Qed.

Lemma rtrim_id r c : isspace c = false -> rtrim (r ++ [c]) = r ++ [c].
Proof. intros H. unfold rtrim. rewrite rev_app_distr. cbn [rev app drop_while]. rewrite H. cbn [rev]. now rewrite rev_involutive. Qed.
Lemma digit_nospace c : 48 <= c <= 57 -> isspace c = false.
Proof. intros H. unfold isspace. destruct (Z.eqb_spec c 32); [lia|]. destruct (Z.leb_spec 9 c); [|lia]. destruct (Z.leb_spec c 13); [lia|]. reflexivity. Qed.
Lemma split_last {A} (l : list A) : l <> [] -> exists r c, l = r ++ [c].
Proof. intros N. destruct (exists_last N) as (r & c & ->). eauto. Qed.

Definition point_of (f : bytes) : bytes := match f with [] => [] | _ => 46 :: f end.
Lemma rtrim_text w f m : w <> [] -> digits w -> digits f -> (m = [] \/ exists c, m = [c] /\ isspace c = false) ->
  rtrim (w ++ point_of f ++ m) = w ++ point_of f ++ m.
Proof.
  intros W DW DF [->|(c & -> & C)].
  - rewrite app_nil_r. destruct f as [|x f].
    + cbn [point_of]. rewrite app_nil_r. destruct (split_last w W) as (r & c & ->). apply rtrim_id. apply digit_nospace.
      apply Forall_app in DW. destruct DW as (_ & DW). now inversion DW.
    + cbn [point_of]. destruct (split_last (x :: f)) as (r & c & E); [discriminate|]. rewrite E in *.
      change (46 :: r ++ [c]) with ((46 :: r) ++ [c]). rewrite app_assoc. apply rtrim_id. apply digit_nospace.
      apply Forall_app in DF. destruct DF as (_ & DF). now inversion DF.
  - rewrite !app_assoc. now apply rtrim_id.
Qed.

(** the text for scaling [S] and modifier [sym] *)
Lemma printed number S : 0 <= number <= U64_MAX -> 1 <= S -> S * 10 <= U64_MAX + 1 ->
  exists w f, w <> [] /\ digits w /\ digits f /\ zlen w <= 20 /\ zlen f <= 3 /\ (f <> [] -> last f 48 <> 48) /\
    place_val (w ++ f) * 10 ^ (3 - zlen f) = number * 1000 / S /\
    exists out idx, frac_digits 3 number S (dec_str (number / S) ++ [46]) (zlen (dec_str (number / S))) = Some (out, idx) /\
      firstn (Z.to_nat idx) out = w ++ point_of f.
Proof.
  intros B S1 S2.
  assert (0 <= number / S <= U64_MAX) as BW.
  { split; [apply Z.div_pos; lia|]. assert (number / S <= number) by (apply Z.div_le_upper_bound; nia). lia. }
  destruct (dec_str_spec (number / S) BW) as (W & DW & VW & LW). set (w := dec_str (number / S)) in *.
  destruct (frac_digits_spec 3 number S (w ++ [46]) (zlen w)) as (f & g & E & DF & LF & LA & V); auto; [lia|].
  change (Z.of_nat 3) with 3 in *. pose proof (zlen_nonneg f) as Z0.
  exists w, f. do 6 (split; [assumption|]). split.
  { rewrite place_val_app, VW, Z.mul_add_distr_r, <- V. rewrite <- Z.mul_assoc, <- Z.pow_add_r by lia.
    replace (zlen f + (3 - zlen f)) with 3 by lia. change (10 ^ 3) with 1000.
    replace (number * 1000) with ((S * (number / S) + number mod S) * 1000) by (rewrite <- Z.div_mod by lia; reflexivity).
    replace ((S * (number / S) + number mod S) * 1000) with (number mod S * 1000 + number / S * 1000 * S) by ring.
    rewrite Z.div_add by lia. lia. }
  exists ((w ++ [46]) ++ f ++ g), (idx_of f (zlen w) (zlen (w ++ [46]))). split; [exact E|].
  destruct f as [|c f].
  - cbn [idx_of point_of app]. rewrite app_nil_r, <- app_assoc. unfold zlen. rewrite Nat2Z.id. rewrite firstn_app, Nat.sub_diag, firstn_all. cbn. apply app_nil_r.
  - cbn [idx_of point_of]. rewrite <- (zlen_app (w ++ [46])). unfold zlen. rewrite Nat2Z.id. rewrite app_assoc, firstn_app, Nat.sub_diag, firstn_all.
    cbn [firstn]. rewrite app_nil_r, <- app_assoc. reflexivity.
Qed.

Lemma last_digit w f : digits f -> f <> [] -> last f 48 <> 48 -> place_val (w ++ f) mod 10 <> 0.
Proof.
  intros D N L. destruct (split_last f N) as (r & c & ->). rewrite last_last in L. apply Forall_app in D. destruct D as (_ & D). inversion D; subst.
  rewrite app_assoc, place_val_app, place_val_one. change (10 ^ zlen [c]) with 10. rewrite Z.add_comm, Z.mod_add by lia. rewrite Z.mod_small by lia. lia.
Qed.

(** what is printed for numbers that get no small prefix *)
Lemma from_spec len number scaling raw : 0 <= number -> 1 <= scaling -> number * 10 <= U64_MAX + 1 -> scaling * 10 <= U64_MAX + 1 ->
  (raw = true \/ scaling <= number \/ scaling < 1000) ->
  exists t n d p, u64_to_string len number None scaling raw = TOk t /\ IsoText t n d p /\ 0 <= d <= 3 /\ zlen t <= 25 /\
    n * 10 ^ (3 - d) = number * 1000 / (scaling * 1000 ^ p) /\ (0 < d -> n mod 10 <> 0) /\
    (raw = true -> p = 0) /\ (p = 0 \/ scaling * 1000 ^ p <= number) /\ (raw = false -> number < scaling * 1000 ^ (p + 1)).
Proof.
  intros N0 S1 B1 B2 C.
  assert (exists sym S p pre, (if number >=? scaling then (if raw then (symbol_large, scaling) else large_loop symbol_large number scaling)
    else (if raw then (symbol_small, scaling) else small_loop symbol_small number scaling)) = (sym, S) /\ 1 <= S /\ S * 10 <= U64_MAX + 1 /\
    S = scaling * 1000 ^ p /\ prefix pre p /\ (raw = true -> p = 0) /\ (p = 0 \/ scaling * 1000 ^ p <= number) /\ (raw = false -> number < scaling * 1000 ^ (p + 1)) /\
    (if raw || str_eqb (match sym with [] => [0] | c :: _ => [c] end) [32] then [] else
     if str_eqb (match sym with [] => [0] | c :: _ => [c] end) [0] then [] else match sym with [] => [0] | c :: _ => [c] end) = pre)
    as (sym & S & p & pre & E & S3 & S4 & ES & PRE & P1 & P2 & P3 & EM).
  { rewrite Z.geb_leb. destruct raw.
    - exists (if scaling <=? number then symbol_large else symbol_small), scaling, 0, []. cbn [orb].
      split; [now destruct (scaling <=? number)|]. change (1000 ^ 0) with 1. split; [lia|]. split; [lia|]. split; [lia|]. split; [constructor|].
      split; [auto|]. split; [auto|]. split; [discriminate|reflexivity].
    - destruct (Z.leb_spec scaling number) as [L|L].
      + destruct (large_loop_spec symbol_large number scaling) as (j & J1 & E & J2 & J3); [lia|lia|].
        assert (j < 7)%nat as J4.
        { destruct (Nat.lt_ge_cases j 7); auto. assert (1000 ^ 7 <= 1000 ^ Z.of_nat j) by (apply Z.pow_le_mono_r; lia).
          change (1000 ^ 7) with 1000000000000000000000 in *. unfold U64_MAX in *. nia. }
        assert (0 < 1000 ^ Z.of_nat j) by (apply Z.pow_pos_nonneg; lia).
        specialize (J3 J4).
        do 7 (destruct j as [|j]; [eexists _, _, _, _; split; [exact E|]; split; [nia|]; split; [lia|]; split; [reflexivity|];
          split; [first [exact p_none|exact p_k|exact p_M|exact p_G|exact p_T|exact p_P|exact p_E]|]; split; [discriminate|]; split; [right; exact J2|]; split; [intros _; exact J3|reflexivity]|]). lia.
      + destruct C as [C|[C|C]]; [discriminate|lia|].
        exists symbol_small, scaling, 0, []. split.
        { cbn. destruct (Z.ltb_spec number scaling); [|lia]. rewrite Z.geb_leb. destruct (Z.leb_spec 1000 scaling); [lia|]. reflexivity. }
        change (1000 ^ 0) with 1. change (1000 ^ (0 + 1)) with 1000. split; [lia|]. split; [lia|]. split; [lia|]. split; [constructor|]. split; [discriminate|]. split; [auto|].
        split; [intros _; lia|reflexivity]. }
  destruct (printed number S) as (w & f & W & DW & DF & LW & LF & LA & V & out & idx & F1 & F2); [lia|lia|lia|].
  pose proof (zlen_nonneg f) as Z0.
  exists (w ++ point_of f ++ pre), (place_val (w ++ f)), (zlen f), p.
  assert (pre = [] \/ exists c, pre = [c] /\ isspace c = false) as PR by (destruct PRE; [auto|right..]; eexists; split; reflexivity).
  split.
  { unfold u64_to_string. rewrite E. destruct (Z.eqb_spec S 0); [lia|]. rewrite F1, F2. f_equal. 
    set (M := match sym with [] => [0] | c :: _ => [c] end) in *.
    assert ((if raw || str_eqb M [32] then w ++ point_of f else if str_eqb M [0] then w ++ point_of f else (w ++ point_of f) ++ M) = w ++ point_of f ++ pre) as ->.
    { rewrite <- EM. destruct (raw || str_eqb M [32]); [now rewrite app_nil_r|]. destruct (str_eqb M [0]); [now rewrite app_nil_r|]. now rewrite app_assoc. }
    now apply rtrim_text. }
  split.
  { exists w, f, (point_of f), [], pre. split; [reflexivity|]. split; [exact W|]. split; [exact DW|]. split; [exact DF|].
    split; [destruct f; auto|]. split; [constructor|]. split; [exact PRE|]. auto. }
  split; [lia|]. split.
  { rewrite !zlen_app. assert (zlen (point_of f) <= 4) by (destruct f as [|c f]; cbn [point_of]; [cbn; lia|rewrite zlen_cons; lia]).
    assert (zlen pre <= 1) by (destruct PRE; vm_compute; discriminate). lia. }
  split; [rewrite V, ES; reflexivity|].
  split; [|auto]. intros D. apply last_digit; auto; [|apply LA]; intros ->; change (zlen []) with 0 in D; lia.
Qed.

Lemma roundtrip len fuel number s raw p : 0 <= s <= 18 -> 0 <= number -> number * Z.max 1000 (10 ^ s) <= U64_MAX -> (20 <= fuel)%nat ->
  0 <= p -> (raw = true -> p = 0) -> (p = 0 \/ 10 ^ s * 1000 ^ p <= number) -> (raw = false -> number < 10 ^ s * 1000 ^ (p + 1)) ->
  (raw = true \/ 10 ^ s <= number \/ s < 3) -> (10 ^ s * 1000 ^ p | number * 1000) ->
  exists t, u64_to_string len number None (10 ^ s) raw = TOk t /\ iso_to_u64 fuel t (10 ^ s) = IOk number /\ (forall c r, t = c :: r -> 48 <= c <= 57).
Proof.
  intros S0 N0 B F P0 PR PS PB C L.
  assert (number * 1000 <= number * Z.max 1000 (10 ^ s)) as B1000 by (apply Z.mul_le_mono_nonneg_l; lia).
  assert (number * 10 ^ s <= number * Z.max 1000 (10 ^ s)) as Bs by (apply Z.mul_le_mono_nonneg_l; lia).
  assert (1 <= 10 ^ s) as S1 by (pose proof (Z.pow_pos_nonneg 10 s); lia).
  assert (10 ^ s * 10 <= U64_MAX + 1) as S10.
  { assert (10 ^ s <= 10 ^ 18) by (apply Z.pow_le_mono_r; lia). change (10 ^ 18) with 1000000000000000000 in *. unfold U64_MAX. lia. }
  assert (raw = true \/ 10 ^ s <= number \/ 10 ^ s < 1000) as C'.
  { destruct C as [C|[C|C]]; auto. right. right. change 1000 with (10 ^ 3). apply Z.pow_lt_mono_r; lia. }
  destruct (from_spec len number (10 ^ s) raw) as (t & n & d & p' & T & I & D & _ & V & LD & Q1 & Q2 & Q3); auto; [lia|].
  assert (0 <= p') as P0' by (destruct I as (? & ? & ? & ? & ? & _ & _ & _ & _ & _ & _ & PRE & _); apply prefix_bound in PRE; lia).
  assert (p' = p) as ->.
  { destruct raw; [rewrite Q1, PR; auto|].
    specialize (PB eq_refl). specialize (Q3 eq_refl).
    destruct (Z.lt_trichotomy p p') as [X|[X|X]]; auto; exfalso.
    - destruct Q2 as [->|Q2]; [lia|]. assert (10 ^ s * 1000 ^ (p + 1) <= 10 ^ s * 1000 ^ p') by (apply Z.mul_le_mono_nonneg_l; [lia|]; apply Z.pow_le_mono_r; lia). lia.
    - destruct PS as [->|PS]; [lia|]. assert (10 ^ s * 1000 ^ (p' + 1) <= 10 ^ s * 1000 ^ p) by (apply Z.mul_le_mono_nonneg_l; [lia|]; apply Z.pow_le_mono_r; lia). lia. }
  assert (0 < 1000 ^ p) as PP by (apply Z.pow_pos_nonneg; lia).
  exists t. split; [exact T|]. split.
  2:{ destruct I as (w & f & point & sp & pre & -> & W & DW & _). intros c r E. destruct w as [|x w]; [contradiction|]. injection E as -> _. now inversion DW. }
  assert (n * 10 ^ (3 - d) * (10 ^ s * 1000 ^ p) = number * 1000) as EQ.
  { rewrite V. destruct L as (q & L). rewrite L. rewrite Z.div_mul; [reflexivity|]. assert (0 < 10 ^ s * 1000 ^ p) by (apply Z.mul_pos_pos; lia). lia. }
  assert (n * 1000 ^ p * 10 ^ s = number * 10 ^ d) as EQ2.
  { assert (10 ^ (3 - d) * 10 ^ d = 1000) as E3 by (rewrite <- Z.pow_add_r by lia; replace (3 - d + d) with 3 by lia; reflexivity).
    assert (0 < 10 ^ (3 - d)) by (apply Z.pow_pos_nonneg; lia).
    apply (Z.mul_reg_l _ _ (10 ^ (3 - d))); [lia|].
    transitivity (number * (10 ^ (3 - d) * 10 ^ d)); [rewrite E3, <- EQ|]; ring. }
  assert (0 < 10 ^ d) by (apply Z.pow_pos_nonneg; lia).
  rewrite (iso_exact fuel t n d p s I); try lia.
  - unfold iso_value. rewrite EQ2, Z.div_mul by lia. reflexivity.
  - destruct (Z.eq_dec p 0) as [->|]; [|lia]. destruct (Z.le_gt_cases d s); [lia|]. exfalso.
    change (1000 ^ 0) with 1 in *. rewrite Z.mul_1_r in EQ2. apply (LD ltac:(lia)).
    assert (10 ^ d = 10 * 10 ^ (d - s - 1) * 10 ^ s) as E by (rewrite <- Z.pow_succ_r, <- Z.pow_add_r by lia; f_equal; lia).
    assert (n = number * 10 ^ (d - s - 1) * 10) as ->; [|apply Z.mod_mul; lia].
    apply (Z.mul_reg_r _ _ (10 ^ s)); [lia|]. rewrite EQ2, E. ring.
  - destruct (Z.le_ge_cases d s) as [X|X].
    + rewrite Z.max_r by lia.
      assert (n * 10 ^ (s - d) * 1000 ^ p * 10 ^ s = number * 10 ^ s) as ->.
      { replace (n * 10 ^ (s - d) * 1000 ^ p * 10 ^ s) with (n * 1000 ^ p * 10 ^ s * 10 ^ (s - d)) by ring. rewrite EQ2, <- Z.mul_assoc, <- Z.pow_add_r by lia. do 2 f_equal. lia. }
      lia.
    + rewrite Z.max_l by lia. rewrite Z.sub_diag. change (10 ^ 0) with 1. rewrite Z.mul_1_r, EQ2.
      assert (10 ^ d <= 10 ^ 3) by (apply Z.pow_le_mono_r; lia). change (10 ^ 3) with 1000 in *.
      assert (number * 10 ^ d <= number * 1000) by (apply Z.mul_le_mono_nonneg_l; lia). lia.
Qed.
