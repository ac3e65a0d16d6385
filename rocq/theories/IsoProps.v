(** C37: numbers as text (isonumber.c). *)
From Verif Require Import Base StrBase IsoModel IsoSpec IsoProofs.

(** ** Text to number *)
(** whole numbers: exact, and every overflow is detected *)
Theorem C37_whole_numbers : forall fuel t scaling, t <> [] -> digits t -> 1 <= scaling ->
  iso_to_u64 fuel t scaling = if place_val t * scaling <=? U64_MAX then IOk (place_val t * scaling) else IErr.
Proof.
  intros fuel t scaling N D S. pose proof (place_val_bound t D) as B.
  assert (strtoull10 t = if place_val t >? U64_MAX then None else Some (place_val t, [])) as E.
  { rewrite <- (strtoull_digits t []); auto; [now rewrite app_nil_r|discriminate]. }
  unfold iso_to_u64. rewrite E. rewrite Z.gtb_ltb. destruct (Z.ltb_spec U64_MAX (place_val t)) as [X|X].
  - destruct (Z.leb_spec (place_val t * scaling) U64_MAX); [nia|reflexivity].
  - destruct (Z.eqb_spec scaling 0); [lia|]. rewrite Z.gtb_ltb. destruct (Z.ltb_spec (U64_MAX / scaling) (place_val t)) as [Y|Y].
    + destruct (Z.leb_spec (place_val t * scaling) U64_MAX) as [L|L]; auto. exfalso.
      assert (place_val t <= U64_MAX / scaling) by (apply Z.div_le_lower_bound; lia). lia.
    + assert (place_val t * scaling <= U64_MAX).
      { pose proof (Z.mul_div_le U64_MAX scaling). nia. }
      destruct (Z.leb_spec (place_val t * scaling) U64_MAX) as [L|L]; [|lia]. now rewrite u64_id by nia.
Qed.
(** every text with fraction and prefix, as long as the products fit into 64
    bits and the fraction has not more digits than the scaling and prefix need *)
Theorem C37_text_value_partial : forall fuel t n d p s, IsoText t n d p -> 0 <= s <= 19 -> d <= 19 -> (20 <= fuel)%nat ->
  (d <= s + 3 * p \/ d - 3 * p < 3) -> n * 10 ^ (Z.max d s - d) * 1000 ^ p * 10 ^ s <= U64_MAX ->
  iso_to_u64 fuel t (10 ^ s) = IOk (iso_value n d p (10 ^ s)).
Proof. exact iso_exact. Qed.
(** only such texts are accepted, apart from leading white space and a sign *)
Theorem C37_accepted_texts : forall fuel t scaling v, iso_to_u64 fuel t scaling = IOk v ->
  exists ws sign w point f sp pre p, t = ws ++ sign ++ w ++ point ++ sp ++ pre /\
    Forall (fun c => isspace c = true) ws /\ (sign = [] \/ sign = [45] \/ sign = [43]) /\ digits w /\ digits f /\
    (point = [] /\ f = [] \/ point = 46 :: f) /\ Forall (fun c => c = 32) sp /\ prefix pre p.
Proof.
  intros fuel t scaling v H. unfold iso_to_u64 in H. destruct (strtoull10 t) as [(num, next)|] eqn:E; [|discriminate].
  assert (exists ws sign w, t = ws ++ sign ++ w ++ next /\ Forall (fun c => isspace c = true) ws /\ (sign = [] \/ sign = [45] \/ sign = [43]) /\ digits w)
    as (ws & sign & w & -> & W1 & W2 & W3).
  { unfold strtoull10 in E. set (s1 := drop_while isspace t) in *.
    set (s2 := match s1 with [] => s1 | c :: r => if (c =? 45) || (c =? 43) then r else s1 end) in *.
    destruct (take_while isdigit s2) as [|x ds] eqn:T.
    - injection E as _ <-. exists [], [], []. cbn. repeat split; auto; constructor.
    - destruct (digits_val (x :: ds) 0 >? U64_MAX); [discriminate|]. injection E as _ <-.
      exists (take_while isspace t), (if starts_minus s1 then [45] else match s1 with c :: _ => if c =? 43 then [43] else [] | [] => [] end), (x :: ds).
      split.
      + rewrite <- T, take_drop.
        assert ((if starts_minus s1 then [45] else match s1 with c :: _ => if c =? 43 then [43] else [] | [] => [] end) ++ s2 = s1) as ->.
        { unfold s2, starts_minus. destruct s1 as [|c r]; auto. destruct (Z.eqb_spec c 45) as [->|]; [reflexivity|]. destruct (Z.eqb_spec c 43) as [->|]; reflexivity. }
        unfold s1. symmetry. apply take_drop.
      + split; [apply Forall_forall; intros c C; pose proof (take_while_all isspace t) as A; rewrite forallb_forall in A; auto|].
        split; [destruct (starts_minus s1); auto; destruct s1 as [|c r]; auto; destruct (c =? 43); auto|].
        apply digits_forallb. rewrite <- T. apply take_while_all. }
  assert (forall n1 n2 next', (exists point f, next = point ++ next' /\ digits f /\ (point = [] /\ f = [] \/ point = 46 :: f)) ->
     match pad_loop fuel n1 n2 scaling with
      | None => IHang
      | Some (num, fs) =>
        match iso_factor next' with
        | None => IErr
        | Some factor =>
          let '(num, fs, factor) := cut_loop 7 num fs factor scaling in
          if num >? U64_MAX / factor then IErr
          else if fs =? 0 then IFault
          else IOk (u64 (u64 (num * factor) * scaling) / fs)
        end
      end = IOk v -> exists point f sp pre p, next = point ++ sp ++ pre /\ digits f /\
      (point = [] /\ f = [] \/ point = 46 :: f) /\ Forall (fun c => c = 32) sp /\ prefix pre p) as G.
  { intros n1 n2 next' (point & f & -> & D & P) Q. destruct (pad_loop fuel n1 n2 scaling) as [(a, b)|]; [|discriminate].
    destruct (iso_factor next') as [factor|] eqn:F; [|discriminate].
    exists point, f, (take_while (fun c => c =? 32) next'), (drop_while (fun c => c =? 32) next').
    unfold iso_factor in F. rewrite take_drop.
    assert (exists p, prefix (drop_while (fun c => c =? 32) next') p) as (p & PP).
    { destruct (drop_while (fun c => c =? 32) next') as [|c [|c' r]] eqn:DW; [eexists; constructor| |discriminate].
      assert (c <> 32) as C32 by (apply drop_while_head in DW; now apply Z.eqb_neq in DW).
      unfold symbol_large in F. change (zs " kMGTPE") with [32; 107; 77; 71; 84; 80; 69] in F. cbn [strchr_idx] in F.
      destruct (Z.eqb_spec 32 c); [congruence|].
      destruct (Z.eqb_spec 107 c) as [<-|]; [exists 1; exact p_k|]. destruct (Z.eqb_spec 77 c) as [<-|]; [exists 2; exact p_M|].
      destruct (Z.eqb_spec 71 c) as [<-|]; [exists 3; exact p_G|]. destruct (Z.eqb_spec 84 c) as [<-|]; [exists 4; exact p_T|].
      destruct (Z.eqb_spec 80 c) as [<-|]; [exists 5; exact p_P|]. destruct (Z.eqb_spec 69 c) as [<-|]; [exists 6; exact p_E|]. discriminate. }
    exists p. split; [reflexivity|]. split; [exact D|]. split; [exact P|]. split; [|exact PP].
    apply Forall_forall. intros c C. pose proof (take_while_all (fun c => c =? 32) next') as A. rewrite forallb_forall in A. apply Z.eqb_eq. auto. }
  assert (exists point f sp pre p, next = point ++ sp ++ pre /\ digits f /\
      (point = [] /\ f = [] \/ point = 46 :: f) /\ Forall (fun c => c = 32) sp /\ prefix pre p) as (point & f & sp & pre & p & -> & R).
  { destruct next as [|c r].
    - exists [], [], [], [], 0. repeat split; auto; constructor.
    - destruct (Z.eqb_spec c 46) as [->|Nc].
      + destruct (frac_loop r num 1) as ((n1, n2), next') eqn:FL. apply (G n1 n2 next'); [|exact H].
        assert (forall r a b x y q, frac_loop r a b = (x, y, q) -> exists f, r = f ++ q /\ digits f) as FF.
        { clear. induction r as [|c r IH]; intros a b x y q Q; cbn in Q.
          - injection Q as _ _ <-. exists []. split; [reflexivity|constructor].
          - destruct (isdigit c) eqn:I.
            + apply IH in Q. destruct Q as (f & -> & D). exists (c :: f). split; [reflexivity|]. constructor; [now apply isdigit_iff|exact D].
            + injection Q as _ _ <-. exists []. split; [reflexivity|constructor]. }
        destruct (FF _ _ _ _ _ _ FL) as (f & -> & D). exists (46 :: f), f. split; [reflexivity|auto].
      + apply (G num 1 (c :: r)); [|exact H]. exists [], []. repeat split; auto; constructor. }
  exists ws, sign, w, point, f, sp, pre, p. tauto.
Qed.
(** conversions end if no fraction has more than 19 digits *)
Theorem C37_terminates_partial : forall t scaling, 0 <= scaling <= 10 ^ 19 ->
  (forall a f b, t = a ++ 46 :: f ++ b -> digits f -> zlen f <= 19) -> iso_to_u64 19 t scaling <> IHang.
Proof.
  intros t scaling S H. unfold iso_to_u64. destruct (strtoull10 t) as [(num, next)|] eqn:E; [|discriminate].
  assert (exists a, t = a ++ next) as (a & Ea).
  { unfold strtoull10 in E. set (s1 := drop_while isspace t) in *.
    set (s2 := match s1 with [] => s1 | c :: r => if (c =? 45) || (c =? 43) then r else s1 end) in *.
    destruct (take_while isdigit s2) as [|x ds] eqn:T; [injection E as _ <-; now exists []|].
    destruct (digits_val (x :: ds) 0 >? U64_MAX); [discriminate|]. injection E as _ <-.
    assert (exists q, s1 = q ++ s2) as (q & Q).
    { unfold s2. destruct s1 as [|c r]; [now exists []|]. destruct ((c =? 45) || (c =? 43)); [now exists [c]|now exists []]. }
    exists (take_while isspace t ++ q ++ x :: ds). rewrite <- T, <- !app_assoc, take_drop, <- Q. unfold s1. symmetry. apply take_drop. }
  destruct next as [|c r]; [destruct (scaling =? 0); [discriminate|]; destruct (num >? U64_MAX / scaling); discriminate|].
  assert (forall n d rest, 0 <= d <= 19 -> match pad_loop 19 n (10 ^ d) scaling with
      | None => IHang
      | Some (num, fs) =>
        match iso_factor rest with
        | None => IErr
        | Some factor =>
          let '(num, fs, factor) := cut_loop 7 num fs factor scaling in
          if num >? U64_MAX / factor then IErr
          else if fs =? 0 then IFault
          else IOk (u64 (u64 (num * factor) * scaling) / fs)
        end
      end <> IHang) as G.
  { intros n d rest D.
    assert (forall k n d, 0 <= d -> d + Z.of_nat k = 19 -> exists x y, pad_loop k n (10 ^ d) scaling = Some (x, y)) as PL.
    { clear - S. induction k as [|k IH]; intros n d D K; cbn [pad_loop].
      - replace d with 19 by lia. destruct (Z.ltb_spec (10 ^ 19) scaling); [lia|eauto].
      - destruct (10 ^ d <? scaling); [|eauto].
        assert (u64 (10 ^ d * 10) = 10 ^ (d + 1)) as ->.
        { rewrite Z.pow_add_r by lia. apply u64_id. assert (10 ^ (d + 1) <= 10 ^ 19) by (apply Z.pow_le_mono_r; lia).
          rewrite Z.pow_add_r in H by lia. change (10 ^ 19) with 10000000000000000000 in H. change (10 ^ 1) with 10 in H. unfold U64_MAX.
          assert (0 < 10 ^ d) by (apply Z.pow_pos_nonneg; lia). lia. }
        apply IH; lia. }
    assert (exists x y, pad_loop 19 n (10 ^ d) scaling = Some (x, y)) as (x & y & ->).
    { destruct (PL (Z.to_nat (19 - d)) n d) as (x & y & Q); try lia.
      assert (forall m k n b z, pad_loop k n b scaling = Some z -> pad_loop (k + m) n b scaling = Some z) as MONO.
      { clear. induction k as [|k IH]; intros n b z Q; cbn [Nat.add pad_loop] in *.
        - destruct (b <? scaling) eqn:B; [discriminate|]. destruct m; cbn [pad_loop]; rewrite B; exact Q.
        - destruct (b <? scaling); auto. }
      exists x, y. apply (MONO (Z.to_nat d)) in Q. replace (Z.to_nat (19 - d) + Z.to_nat d)%nat with 19%nat in Q by lia. exact Q. }
    destruct (iso_factor rest); [|discriminate]. destruct (cut_loop 7 x y z scaling) as ((a1, b1), c1).
    destruct (a1 >? U64_MAX / c1); [discriminate|]. destruct (b1 =? 0); discriminate. }
  destruct (Z.eqb_spec c 46) as [->|Nc].
  - assert (forall r, forall n k, 0 <= k -> (forall f b, r = f ++ b -> digits f -> k + zlen f <= 19) ->
      exists x d q, frac_loop r n (10 ^ k) = (x, 10 ^ d, q) /\ 0 <= d <= 19) as FL.
    { clear. induction r as [|c r IH]; intros n k K F; cbn [frac_loop].
      - exists n, k, []. split; auto. specialize (F [] [] eq_refl (Forall_nil _)). change (zlen []) with 0 in F. lia.
      - destruct (isdigit c) eqn:I.
        + apply isdigit_iff in I. assert (k + 1 <= 19) as K1.
          { specialize (F [c] r eq_refl). change (zlen [c]) with 1 in F. apply F. repeat constructor; lia. }
          assert (u64 (10 ^ k * 10) = 10 ^ (k + 1)) as ->.
          { rewrite Z.pow_add_r by lia. apply u64_id. assert (10 ^ (k + 1) <= 10 ^ 19) as L by (apply Z.pow_le_mono_r; lia).
            rewrite Z.pow_add_r in L by lia. change (10 ^ 19) with 10000000000000000000 in L. change (10 ^ 1) with 10 in L. unfold U64_MAX.
            assert (0 < 10 ^ k) by (apply Z.pow_pos_nonneg; lia). lia. }
          apply IH; [lia|]. intros f b -> D. specialize (F (c :: f) b eq_refl). rewrite zlen_cons in F.
          assert (k + (zlen f + 1) <= 19); [|lia]. apply F. constructor; [lia|exact D].
        + exists n, k, (c :: r). split; auto. specialize (F [] (c :: r) eq_refl (Forall_nil _)). change (zlen []) with 0 in F. lia. }
    destruct (FL r num 0) as (x & d & q & Q & D); [lia| |].
    { intros f b -> Df. rewrite Z.add_0_l. apply (H a f b Ea Df). }
    change (10 ^ 0) with 1 in Q. rewrite Q. now apply G.
  - apply (G num 0 (c :: r)). lia.
Qed.

(** ** Number to text *)
(** the printed text is the number with three fractional digits, cut off, and
    the largest prefix that leaves a whole part *)
Theorem C37_printed_text : forall number scaling raw, 0 <= number -> 1 <= scaling ->
  number * 10 <= U64_MAX + 1 -> scaling * 10 <= U64_MAX + 1 -> (raw = true \/ scaling <= number \/ scaling < 1000) ->
  exists t n d p, iso_from_u64 number None scaling raw = TOk t /\ IsoText t n d p /\ 0 <= d <= 3 /\ zlen t <= 25 /\
    n * 10 ^ (3 - d) = number * 1000 / (scaling * 1000 ^ p) /\ (0 < d -> n mod 10 <> 0) /\
    (raw = true -> p = 0) /\ (p = 0 \/ scaling * 1000 ^ p <= number) /\ (raw = false -> number < scaling * 1000 ^ (p + 1)).
Proof. intros number scaling raw. apply from_spec. Qed.
(** every number comes back from its text, if three fractional digits of the
    prefix [p] that is chosen for it are enough *)
Theorem C37_roundtrip_partial : forall fuel number s raw p, 0 <= s <= 18 -> 0 <= number ->
  number * Z.max 1000 (10 ^ s) <= U64_MAX -> (20 <= fuel)%nat -> 0 <= p ->
  (raw = true -> p = 0) -> (p = 0 \/ 10 ^ s * 1000 ^ p <= number) -> (raw = false -> number < 10 ^ s * 1000 ^ (p + 1)) ->
  (raw = true \/ 10 ^ s <= number \/ s < 3) -> (10 ^ s * 1000 ^ p | number * 1000) ->
  exists t, iso_from_u64 number None (10 ^ s) raw = TOk t /\ iso_to_u64 fuel t (10 ^ s) = IOk number.
Proof.
  intros. destruct (roundtrip 48 fuel number s raw p) as (t & A & B & _); auto. eauto.
Qed.
(** the same for signed numbers *)
Theorem C37_signed_roundtrip_partial : forall fuel number s raw p, 0 <= s <= 18 ->
  Z.abs number * Z.max 1000 (10 ^ s) <= U64_MAX -> (20 <= fuel)%nat -> 0 <= p ->
  (raw = true -> p = 0) -> (p = 0 \/ 10 ^ s * 1000 ^ p <= Z.abs number) -> (raw = false -> Z.abs number < 10 ^ s * 1000 ^ (p + 1)) ->
  (raw = true \/ 10 ^ s <= Z.abs number \/ s < 3) -> (10 ^ s * 1000 ^ p | number * 1000) ->
  exists t, iso_from_s64 number None (10 ^ s) raw = TOk t /\ iso_to_s64 fuel t (10 ^ s) = IOk number.
Proof.
  intros fuel number s raw p S B F P0 P1 P2 P3 C L.
  assert (Z.abs number * 1000 <= U64_MAX) as SM.
  { assert (Z.abs number * 1000 <= Z.abs number * Z.max 1000 (10 ^ s)) by (apply Z.mul_le_mono_nonneg_l; lia). lia. }
  assert (s64 (Z.abs number) = Z.abs number) as S64.
  { unfold s64, u64. rewrite Z.mod_small by (unfold U64_MAX in SM; lia). destruct (Z.ltb_spec (Z.abs number) 9223372036854775808); [reflexivity|unfold U64_MAX in SM; lia]. }
  destruct (roundtrip (if number <? 0 then 47 else 48) fuel (Z.abs number) s raw p) as (t & T & R & HD); auto; [lia| |].
  { destruct L as (q & L). destruct (Z.abs_eq_or_opp number) as [->| ->]; [now exists q|]. exists (- q). lia. }
  unfold iso_from_s64. destruct (Z.ltb_spec number 0) as [N|N].
  - rewrite (Z.abs_neq number) in * by lia. rewrite T. exists (45 :: t). split; [reflexivity|].
    unfold iso_to_s64. cbn [starts_minus tl]. change (45 =? 45) with true. cbn iota. rewrite R, S64.
    destruct (Z.eqb_spec (- number) I64_MIN); [unfold I64_MIN in *; lia|]. f_equal. lia.
  - rewrite (Z.abs_eq number) in * by lia. exists t. split; [exact T|].
    unfold iso_to_s64. assert (starts_minus t = false) as ->.
    { unfold starts_minus. destruct t as [|c r]; auto. specialize (HD c r eq_refl). destruct (Z.eqb_spec c 45); [lia|reflexivity]. }
    now rewrite R, S64.
Qed.
(** in particular all times in milliseconds: oonf_clock.h:187-189
    oonf_clock_toIntervalString, 201-210 oonf_clock_fromIntervalString *)
Theorem C37_clock_interval_roundtrip : forall fuel ms, Z.abs ms * 1000 <= U64_MAX -> (20 <= fuel)%nat ->
  exists t, iso_from_s64 ms None 1000 true = TOk t /\ iso_to_s64 fuel t 1000 = IOk ms.
Proof.
  intros fuel ms B F. change 1000 with (10 ^ 3) at 1 2. apply (C37_signed_roundtrip_partial fuel ms 3 true 0); auto; try lia; try discriminate.
  exists ms. reflexivity.
Qed.

Example C37_ex : IsoText (zs "12.345 k") 12345 3 1 /\ iso_to_u64 20 (zs "12.345 k") 1000 = IOk 12345000 /\
  iso_from_u64 12345000 None 1000 false = TOk (zs "12.345k") /\ (10 ^ 3 * 1000 ^ 1 | 12345000 * 1000) /\
  iso_from_s64 (-1500) None 1000 true = TOk (zs "-1.5") /\ iso_to_u64 20 (zs "18446744073709551616") 1 = IErr.
Proof.
  split. { exists (zs "12"), (zs "345"), (zs ".345"), [32], (zs "k"). split; [reflexivity|]. split; [discriminate|].
    split; [repeat constructor; cbn; lia|]. split; [repeat constructor; cbn; lia|]. split; [right; reflexivity|].
    split; [repeat constructor|]. split; [exact p_k|]. split; reflexivity. }
  split; [vm_compute; reflexivity|]. split; [vm_compute; reflexivity|]. split; [exists 12345; reflexivity|]. split; vm_compute; reflexivity.
Qed.

(** ** What is false *)
(** 64 digits behind the point: the scale becomes 0 and the loop in lines
    183-186 does not end *)
Theorem C37_hang_refuted : exists t, forall fuel, iso_to_u64 fuel t 1 = IHang.
Proof.
  exists (zs "1." ++ repeat 48 64). intros fuel.
  assert (forall fuel n, pad_loop fuel n 0 1 = None) as P by (induction fuel0; intros n; cbn [pad_loop]; [reflexivity|apply IHfuel0]).
  unfold iso_to_u64. assert (strtoull10 (zs "1." ++ repeat 48 64) = Some (1, 46 :: repeat 48 64)) as -> by reflexivity.
  change (46 =? 46) with true. cbn iota.
  assert (exists n, frac_loop (repeat 48 64) 1 1 = (n, 0, [])) as (n & ->) by (eexists; vm_compute; reflexivity). now rewrite P.
Qed.
(** a product beyond 64 bits is not noticed... *)
Theorem C37_overflow_refuted : exists t n d p, IsoText t n d p /\
  (exists v, iso_to_u64 20 t 1000 = IOk v /\ v <> iso_value n d p 1000) /\ iso_from_u64 (iso_value n d p 1000) None 1000 false = TOk t.
Proof.
  exists (zs "100T"), 100, 0, 4. split.
  { exists (zs "100"), [], [], [], (zs "T"). split; [reflexivity|]. split; [discriminate|]. split; [repeat constructor; cbn; lia|].
    split; [constructor|]. split; [auto|]. split; [constructor|]. split; [exact p_T|]. split; reflexivity. }
  split; [exists 7766279631452241; split; [vm_compute; reflexivity|vm_compute; discriminate]|vm_compute; reflexivity].
Qed.
(** ...and signed numbers become negative *)
Theorem C37_signed_overflow_refuted : exists v, v < 0 /\ iso_to_s64 20 (zs "10E") 1 = IOk v.
Proof. exists (-8446744073709551616). split; [lia|vm_compute; reflexivity]. Qed.
(** a fourth fractional digit changes the first three *)
Theorem C37_digits_refuted : IsoText (zs "1.2345") 12345 4 0 /\ iso_to_u64 20 (zs "1.2345") 1000 = IOk 1200 /\ iso_value 12345 4 0 1000 = 1234.
Proof.
  split; [|split; vm_compute; reflexivity].
  exists (zs "1"), (zs "2345"), (zs ".2345"), [], []. split; [reflexivity|]. split; [discriminate|]. split; [repeat constructor; cbn; lia|].
  split; [repeat constructor; cbn; lia|]. split; [right; reflexivity|]. split; [constructor|]. split; [constructor|]. split; reflexivity.
Qed.
(** numbers below the scaling are printed with prefixes that are not accepted *)
Theorem C37_small_prefix_refuted : exists t, iso_from_u64 5 None 1000 false = TOk t /\ forall fuel v, iso_to_u64 fuel t 1000 <> IOk v.
Proof.
  exists (zs "5m"). split; [vm_compute; reflexivity|]. intros fuel v H.
  unfold iso_to_u64 in H. change (strtoull10 (zs "5m")) with (Some (5, [109])) in H. cbn iota in H. change (109 =? 46) with false in H. cbn iota in H.
  destruct (pad_loop fuel 5 1 1000) as [(a, b)|]; [|discriminate]. discriminate.
Qed.
(** negative numbers are accepted as unsigned, and two signs as one *)
Theorem C37_sign_refuted : iso_to_u64 20 (zs "-5") 1 = IOk (2 ^ 64 - 5) /\ iso_to_s64 20 (zs "--5") 1 = IOk 5.
Proof. split; vm_compute; reflexivity. Qed.
(** scaling 0, which systeminfo.c:459-498 and eth_listener.c:224 use, divides by zero *)
Theorem C37_scaling_zero_refuted : forall number unit raw, 0 <= number <= U64_MAX -> iso_from_u64 number unit 0 raw = TFault.
Proof.
  intros number unit raw B. unfold iso_from_u64, u64_to_string. rewrite Z.geb_leb. destruct (Z.leb_spec 0 number); [|lia].
  assert (exists sym, (if raw then (symbol_large, 0) else large_loop symbol_large number 0) = (sym, 0)) as (sym & ->).
  { destruct raw; [eauto|]. exists []. assert (0 <= number / 1000) as D by (apply Z.div_pos; lia).
    assert (forall s, large_loop s number 0 = ([], 0)) as LL; [|apply LL]. induction s as [|c s IH]; cbn [large_loop]; auto.
    rewrite Z.geb_leb. destruct (Z.leb_spec 0 (number / 1000)); [|lia]. change (u64 (0 * 1000)) with 0. exact IH. }
  reflexivity.
Qed.

Print Assumptions C37_whole_numbers.
Print Assumptions C37_text_value_partial.
Print Assumptions C37_accepted_texts.
Print Assumptions C37_terminates_partial.
Print Assumptions C37_printed_text.
Print Assumptions C37_roundtrip_partial.
Print Assumptions C37_signed_roundtrip_partial.
Print Assumptions C37_clock_interval_roundtrip.
Print Assumptions C37_hang_refuted.
Print Assumptions C37_overflow_refuted.
Print Assumptions C37_signed_overflow_refuted.
Print Assumptions C37_digits_refuted.
Print Assumptions C37_small_prefix_refuted.
Print Assumptions C37_sign_refuted.
Print Assumptions C37_scaling_zero_refuted.
