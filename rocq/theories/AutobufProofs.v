(** Proofs about autobuf.c. *)
From Verif Require Import Base BitsModel BufLemmas SplitLemmas StrBase StringModel StringSpec AutobufModel AutobufSpec.

Lemma page_pos p : page_ok p -> 1 <= p <= 1073741824.
Proof.
  intros (k & K & ->). split; [pose proof (Z.pow_pos_nonneg 2 k); lia|].
  change 1073741824 with (2 ^ 30). apply Z.pow_le_mono_r; lia.
Qed.
Lemma round_up_spec v p : page_ok p -> 0 <= v <= 9000000000000000000 -> v <= round_up v p <= v + p.
Proof.
  intros Hp V. pose proof (page_pos p Hp) as B. destruct Hp as (k & K & ->). unfold round_up.
  replace (u64 (v + 2 ^ k - 1)) with (v + 2 ^ k - 1) by (unfold u64; rewrite Z.mod_small; lia).
  set (x := v + 2 ^ k - 1).
  assert (Z.land x (u64 (Z.lnot (2 ^ k - 1))) = Z.ldiff x (Z.ones k)) as ->.
  { apply Z.bits_inj'. intros n N. rewrite Z.land_spec, Z.ldiff_spec.
    unfold u64. change 18446744073709551616 with (2 ^ 64). rewrite Z.ones_equiv.
    replace (Z.pred (2 ^ k)) with (2 ^ k - 1) by lia.
    destruct (Z.ltb_spec n 64).
    - rewrite Z.mod_pow2_bits_low by lia. rewrite Z.lnot_spec by lia. reflexivity.
    - assert (Z.testbit x n = false) as ->; [|reflexivity].
      apply Z.testbit_false; [lia|]. rewrite Z.div_small; [reflexivity|]. split; [unfold x; lia|].
      apply Z.lt_le_trans with (2 ^ 64); [unfold x; change (2 ^ 64) with 18446744073709551616; lia|].
      apply Z.pow_le_mono_r; lia. }
  rewrite Z.ldiff_ones_r by lia. rewrite Z.shiftl_mul_pow2, Z.shiftr_div_pow2 by lia.
  pose proof (Z.div_mod x (2 ^ k)). pose proof (Z.mod_pos_bound x (2 ^ k)). unfold x in *. lia.
Qed.

Definition mem (a : abuf) : bytes := match ab_buf a with Some b => b | None => [] end.
Record Inv (a : abuf) (c : bytes) (t : bool) : Prop := {
  I_len : ab_len a = zlen c;
  I_null : ab_buf a = None -> ab_total a = 0;
  I_max : zlen (mem a) <= max_alloc;
  I_mem : exists r y, mem a = (c ++ r) ++ y /\ zlen (c ++ r) = ab_total a /\ (t = true -> exists r', r = 0 :: r')
}.
Lemma Inv_bounds a c t : Inv a c t -> 0 <= ab_len a <= ab_total a /\ ab_total a <= max_alloc /\ zlen c <= max_alloc /\ (t = true -> ab_len a < ab_total a).
Proof.
  intros [L N M (r & y & E & T & F)]. rewrite E in M. rewrite zlen_app in M. rewrite zlen_app in T.
  pose proof (zlen_nonneg c). pose proof (zlen_nonneg r). pose proof (zlen_nonneg y).
  split; [lia|]. split; [rewrite zlen_app in M; lia|]. split; [rewrite zlen_app in M; lia|].
  intros Ht. destruct (F Ht) as (r' & ->). rewrite zlen_cons in T. pose proof (zlen_nonneg r'). lia.
Qed.
Lemma u64_small z : 0 <= z < 18446744073709551616 -> u64 z = z.
Proof. intros. apply u64_id. exact H. Qed.

Section Page.
Variable page : Z.
Hypothesis Hpage : page_ok page.

Lemma enlarge_spec e a c t n : Inv a c t -> 0 <= n <= 8000000000000000000 ->
  exists r a', enlarge page e a n = Some (r, a') /\ Inv a' c t /\ ab_total a <= ab_total a' /\
    (r = 0 /\ n + 1 <= ab_total a' /\ (exists b, ab_buf a' = Some b) \/
     r = -1 /\ a' = {| ab_total := ab_total a; ab_len := ab_len a; ab_buf := ab_buf a; ab_err := true |} /\
     (e_ok e = false \/ max_alloc < n + 2 + page)).
Proof.
  intros I N. pose proof (page_pos page Hpage) as HP. pose proof (Inv_bounds a c t I) as (B1 & B2 & B3 & _).
  unfold max_alloc in *. unfold enlarge. rewrite (u64_small (n + 1)) by lia.
  destruct (Z.gtb_spec (n + 1) (ab_total a)) as [G|G].
  2:{ exists 0, a. split; [reflexivity|]. split; [exact I|]. split; [lia|]. left. split; [reflexivity|]. split; [lia|].
      destruct I as [L Nu _ _]. destruct (ab_buf a); [eauto|]. rewrite Nu in * by reflexivity. lia. }
  rewrite (u64_small (n + 1 + 1)) by lia.
  pose proof (round_up_spec (n + 1 + 1) page Hpage ltac:(lia)) as R. set (m := round_up (n + 1 + 1) page) in *.
  unfold realloc. destruct (e_ok e) eqn:Eo; cbn [andb].
  2:{ eexists _, _. split; [reflexivity|]. split; [|split; [cbn; lia|right; auto]].
      destruct I as [L Nu M X]. split; auto. }
  destruct (Z.leb_spec m max_alloc) as [Lm|Lm]; unfold max_alloc in Lm.
  2:{ eexists _, _. split; [reflexivity|]. split; [|split; [cbn; lia|right; split; auto; split; auto; right; lia]].
      destruct I as [L Nu M X]. split; auto. }
  fold (mem a). destruct I as [L Nu M (r & y & E & T & F)]. rewrite E.
  set (x := c ++ r) in *.
  rewrite firstn_app. assert (length x <= Z.to_nat m)%nat by (unfold zlen in T; lia).
  rewrite (firstn_all2 x) by lia. rewrite <- app_assoc.
  set (z := firstn (Z.to_nat m - length x) y ++ repeat (e_junk e) (Z.to_nat m - length (x ++ y))).
  assert (zlen z = m - ab_total a) as Z0.
  { unfold z. rewrite zlen_app, zlen_repeat, app_length. unfold zlen. rewrite firstn_length. unfold zlen in T. lia. }
  rewrite (u64_small (m - ab_total a)) by lia.
  replace (x ++ z) with (x ++ z ++ []) by (now rewrite app_nil_r).
  rewrite (copy_in_split (repeat 0 (Z.to_nat (m - ab_total a))) x z []); [|lia|rewrite zlen_repeat; lia].
  rewrite app_nil_r. eexists _, _. split; [reflexivity|].
  split; [|split; [cbn; lia|left; cbn; split; [reflexivity|]; split; [lia|eauto]]].
  split; cbn [ab_len ab_buf ab_total]; [exact L|discriminate| |].
  - unfold mem; cbn [ab_buf]. rewrite zlen_app, zlen_repeat. unfold max_alloc. lia.
  - unfold mem; cbn [ab_buf]. exists (r ++ repeat 0 (Z.to_nat (m - ab_total a))), [].
    rewrite app_nil_r. split; [unfold x; now rewrite <- app_assoc|]. split.
    + rewrite app_assoc. fold x. rewrite zlen_app, zlen_repeat. lia.
    + intros Ht. destruct (F Ht) as (r' & ->). eexists. reflexivity.
Qed.

(** the buffer behind an [Inv] state with memory *)
Lemma Inv_some a c t : Inv a c t -> forall b, ab_buf a = Some b ->
  exists r y, b = c ++ r ++ y /\ zlen r = ab_total a - zlen c /\ (t = true -> exists r', r = 0 :: r').
Proof.
  intros [L N M (r & y & E & T & F)] b Hb. unfold mem in E. rewrite Hb in E. exists r, y.
  rewrite zlen_app in T. split; [rewrite E; now rewrite <- app_assoc|]. split; [lia|exact F].
Qed.
Lemma Inv_intro a c t b r y : ab_buf a = Some b -> b = c ++ r ++ y -> ab_len a = zlen c ->
  zlen r = ab_total a - zlen c -> zlen b <= max_alloc -> (t = true -> exists r', r = 0 :: r') -> Inv a c t.
Proof.
  intros Hb E L R M F. split; [exact L|congruence|unfold mem; now rewrite Hb|].
  exists r, y. unfold mem. rewrite Hb. split; [rewrite E; now rewrite <- app_assoc|]. rewrite zlen_app. split; [lia|exact F].
Qed.
Lemma Inv_max a c t b : Inv a c t -> ab_buf a = Some b -> zlen b <= max_alloc.
Proof. intros [_ _ M _] Hb. unfold mem in M. now rewrite Hb in M. Qed.

(** writing [d] (and more room) behind the content *)
Lemma put_behind a c t d l b : Inv a c t -> ab_buf a = Some b -> zlen c + zlen d <= ab_total a ->
  exists a', put_at a (ab_len a) d l = Some a' /\ ab_total a' = ab_total a /\ ab_len a' = l /\
    exists b' r' y, ab_buf a' = Some b' /\ b' = c ++ d ++ r' ++ y /\ zlen (d ++ r') = ab_total a - zlen c /\ zlen b' <= max_alloc.
Proof.
  intros I Hb D. destruct (Inv_some a c t I b Hb) as (r & y & E & R & F). pose proof (Inv_max a c t b I Hb) as M.
  pose proof (zlen_nonneg d). pose proof (zlen_nonneg c).
  destruct (zsplit r (zlen d)) as (r1 & r2 & Er & L1 & L2); [lia|].
  unfold put_at, buf_write. rewrite Hb.
  assert (b = c ++ r1 ++ (r2 ++ y)) as Eb. { rewrite E, Er. now rewrite <- app_assoc. }
  rewrite (I_len _ _ _ I). rewrite Eb.
  rewrite (copy_in_split d c r1 (r2 ++ y)); [|reflexivity|lia].
  eexists. split; [reflexivity|]. cbn [ab_total ab_len ab_buf]. split; [reflexivity|]. split; [reflexivity|].
  exists (c ++ d ++ r2 ++ y), r2, y. split; [reflexivity|]. split; [reflexivity|].
  rewrite Eb in M. rewrite !zlen_app in *. split; lia.
Qed.

Lemma puts_spec e a c t x : Inv a c t -> aop_ok (c, t) e (APuts x) ->
  exists r a', abuf_puts page e a x = Some (r, a') /\
    (r = zlen x /\ Inv a' (c ++ x) true \/ r = -1 /\ Inv a' c t /\ may_fail page c e (APuts x)).
Proof.
  intros I (Nn & X). pose proof (Inv_bounds a c t I) as (B1 & B2 & B3 & _). pose proof (zlen_nonneg x). pose proof (page_pos page Hpage).
  unfold max_alloc in *. unfold abuf_puts. pose proof (I_len _ _ _ I) as L.
  rewrite (u64_small (ab_len a + zlen x + 1)) by lia.
  destruct (enlarge_spec e a c t (ab_len a + zlen x + 1) I) as (r & a1 & -> & I1 & T1 & [(-> & N1 & b & Hb)|(-> & -> & W)]); [lia| |].
  - cbn [Z.ltb]. change (0 <? 0) with false. cbn iota.
    pose proof (I_len _ _ _ I1) as L1.
    destruct (put_behind a1 c t (x ++ [0]) (u64 (ab_len a1 + zlen x)) b I1 Hb) as (a2 & -> & T2 & L2 & b' & r' & y & Hb' & E' & R' & M').
    { rewrite zlen_app, zlen_cons. change (@zlen Z []) with 0. lia. }
    eexists _, _. split; [reflexivity|]. left. split.
    + unfold s32, u32. rewrite Z.mod_small by lia. destruct (Z.ltb_spec (zlen x) 2147483648); [reflexivity|lia].
    + apply (Inv_intro a2 (c ++ x) true b' (0 :: r') y); auto.
      * rewrite E'. rewrite <- !app_assoc. reflexivity.
      * rewrite L2, zlen_app. rewrite u64_small; lia.
      * rewrite <- app_assoc in R'. cbn [app] in R'. rewrite zlen_app in R'. rewrite zlen_app. lia.
      * eauto.
  - change (-1 <? 0) with true. cbn iota. eexists _, _. split; [reflexivity|]. right. split; [reflexivity|]. split; [exact I1|].
    split; [exact Logic.I|]. cbn [added]. unfold max_alloc, max_obj in *. destruct W; [auto|]. right. left. lia.
Qed.

Lemma memcpy_spec e a c t x : Inv a c t -> aop_ok (c, t) e (AMemcpy x) ->
  exists r a', abuf_memcpy page e a x = Some (r, a') /\
    (r = 0 /\ Inv a' (c ++ x) (match x with [] => t | _ => true end) \/ r = -1 /\ Inv a' c t /\ may_fail page c e (AMemcpy x)).
Proof.
  intros I X. cbn in X. pose proof (Inv_bounds a c t I) as (B1 & B2 & B3 & _). pose proof (zlen_nonneg x). pose proof (page_pos page Hpage).
  unfold max_alloc, max_obj in *. unfold abuf_memcpy. pose proof (I_len _ _ _ I) as L.
  destruct (Z.eqb_spec (zlen x) 0) as [Z0|Z0].
  { apply zlen_zero in Z0. subst x. eexists _, _. split; [reflexivity|]. left. rewrite app_nil_r. auto. }
  assert (match x with [] => t | _ => true end = true) as -> by (destruct x; [exfalso; apply Z0; reflexivity|reflexivity]).
  rewrite (u64_small (ab_len a + zlen x)) by lia.
  destruct (enlarge_spec e a c t (ab_len a + zlen x) I) as (r & a1 & -> & I1 & T1 & [(-> & N1 & b & Hb)|(-> & -> & W)]); [lia| |].
  - change (0 <? 0) with false. cbn iota.
    pose proof (I_len _ _ _ I1) as L1.
    destruct (put_behind a1 c t x (u64 (ab_len a1 + zlen x)) b I1 Hb) as (a2 & -> & T2 & L2 & b' & r' & y & Hb' & E' & R' & M'); [lia|].
    assert (Inv a2 (c ++ x) false) as I2.
    { apply (Inv_intro a2 (c ++ x) false b' r' y); auto; try discriminate.
      - now rewrite <- app_assoc.
      - rewrite L2, zlen_app, u64_small; lia.
      - rewrite zlen_app in R'. rewrite zlen_app. lia. }
    destruct (put_behind a2 (c ++ x) false [0] (ab_len a2) b' I2 Hb') as (a3 & -> & T3 & L3 & b3 & r3 & y3 & Hb3 & E3 & R3 & M3).
    { rewrite zlen_app. change (zlen [0]) with 1. lia. }
    eexists _, _. split; [reflexivity|]. left. split; [reflexivity|].
    apply (Inv_intro a3 (c ++ x) true b3 (0 :: r3) y3); auto.
    + rewrite L3. apply I2.
    + cbn [app] in R3. lia.
    + eauto.
  - change (-1 <? 0) with true. cbn iota. eexists _, _. split; [reflexivity|]. right. split; [reflexivity|]. split; [exact I1|].
    split; [exact Logic.I|]. cbn [added]. unfold max_alloc, max_obj in *. destruct W; [auto|]. right. left. lia.
Qed.

Lemma prepend_spec e a c t x : Inv a c t -> aop_ok (c, t) e (APrepend x) ->
  exists r a', abuf_prepend page e a x = Some (r, a') /\
    (r = 0 /\ Inv a' (x ++ c) (match x with [] => t | _ => true end) \/ r = -1 /\ Inv a' c t /\ may_fail page c e (APrepend x)).
Proof.
  intros I X. cbn in X. pose proof (Inv_bounds a c t I) as (B1 & B2 & B3 & _). pose proof (zlen_nonneg x). pose proof (page_pos page Hpage).
  unfold max_alloc, max_obj in *. unfold abuf_prepend. pose proof (I_len _ _ _ I) as L.
  destruct (Z.eqb_spec (zlen x) 0) as [Z0|Z0].
  { apply zlen_zero in Z0. subst x. eexists _, _. split; [reflexivity|]. left. auto. }
  assert (match x with [] => t | _ => true end = true) as -> by (destruct x; [exfalso; apply Z0; reflexivity|reflexivity]).
  rewrite (u64_small (ab_len a + zlen x)) by lia.
  destruct (enlarge_spec e a c t (ab_len a + zlen x) I) as (r & a1 & -> & I1 & T1 & [(-> & N1 & b & Hb)|(-> & -> & W)]); [lia| |].
  - change (0 <? 0) with false. cbn iota.
    pose proof (I_len _ _ _ I1) as L1. pose proof (Inv_max a1 c t b I1 Hb) as M1.
    destruct (Inv_some a1 c t I1 b Hb) as (r & y & E & R & F). pose proof (zlen_nonneg c).
    (* cut the room behind the content: x, one more byte *)
    destruct (zsplit (c ++ r) (zlen x)) as (p1 & q1 & E1 & LP & LQ); [rewrite zlen_app; lia|].
    rewrite zlen_app in LQ.
    destruct (zsplit q1 (zlen c)) as (p2 & q2 & E2 & LP2 & LQ2); [lia|].
    destruct q2 as [|z q3]; [change (zlen []) with 0 in LQ2; lia|].
    assert (b = p1 ++ p2 ++ (z :: q3 ++ y)) as Eb.
    { rewrite E, app_assoc, E1, E2. rewrite <- !app_assoc. reflexivity. }
    assert (buf_move (ab_buf a1) (zlen x) 0 (ab_len a1) = Some (Some (p1 ++ c ++ (z :: q3 ++ y)))) as ->.
    { unfold buf_move. rewrite Hb, L1. replace (Z.to_nat (zlen c)) with (length c) by (unfold zlen; lia).
      assert (copy_out b 0 (length c) = Some c) as ->.
      { rewrite E. change (c ++ r ++ y) with ([] ++ c ++ (r ++ y)). now apply copy_out_split. }
      rewrite Eb. rewrite (copy_in_split c p1 p2 (z :: q3 ++ y)); [reflexivity|lia|lia]. }
    unfold buf_write at 1.
    assert (copy_in (p1 ++ c ++ (z :: q3 ++ y)) 0 x = Some (x ++ c ++ (z :: q3 ++ y))) as ->.
    { pose proof (copy_in_split x [] p1 (c ++ (z :: q3 ++ y)) 0 eq_refl LP) as Q. exact Q. }
    rewrite (u64_small (ab_len a1 + zlen x)) by lia.
    unfold put_at, buf_write. cbn [ab_buf ab_total ab_err ab_len].
    assert (copy_in (x ++ c ++ (z :: q3 ++ y)) (ab_len a1 + zlen x) [0] = Some (x ++ c ++ (0 :: q3 ++ y))) as ->.
    { cbn [copy_in]. replace (x ++ c ++ z :: q3 ++ y) with ((x ++ c) ++ z :: (q3 ++ y)) by (now rewrite <- app_assoc).
      rewrite zset_split; [now rewrite <- app_assoc|rewrite zlen_app; lia]. }
    eexists _, _. split; [reflexivity|]. left. split; [reflexivity|].
    eapply (Inv_intro _ (x ++ c) true _ (0 :: q3) y); cbn [ab_buf ab_len ab_total]; [reflexivity| | | | |].
    + rewrite <- !app_assoc. reflexivity.
    + rewrite zlen_app. lia.
    + rewrite zlen_app. rewrite !zlen_cons in *. lia.
    + rewrite Eb in M1. rewrite !zlen_app, !zlen_cons, !zlen_app in *. lia.
    + eauto.
  - change (-1 <? 0) with true. cbn iota. eexists _, _. split; [reflexivity|]. right. split; [reflexivity|]. split; [exact I1|].
    split; [exact Logic.I|]. cbn [added]. unfold max_alloc, max_obj in *. destruct W; [auto|]. right. left. lia.
Qed.

Lemma realloc_mem e b n p : realloc e b n = Some p -> 0 <= n -> n <= max_alloc /\ zlen p = n /\
  forall x y, (match b with Some b => b | None => [] end) = x ++ y -> zlen x <= n -> exists z, p = x ++ z.
Proof.
  unfold realloc. destruct (e_ok e); cbn [andb]; [|discriminate]. destruct (Z.leb_spec n max_alloc) as [L|]; [|discriminate].
  intros [= <-] N. set (m := match b with Some b => b | None => [] end). split; [exact L|]. split.
  - rewrite zlen_app, zlen_repeat. unfold zlen. rewrite firstn_length. lia.
  - intros x y E X. rewrite E. unfold zlen in X. rewrite firstn_app, (firstn_all2 x) by lia. rewrite <- app_assoc. eauto.
Qed.

Lemma pull_spec e a c t n : Inv a c t -> aop_ok (c, t) e (APull n) ->
  exists a', abuf_pull page e a n = Some a' /\ Inv a' (skipn (Z.to_nat n) c) (if n =? 0 then t else false).
Proof.
  intros I X. cbn in X. pose proof (Inv_bounds a c t I) as (B1 & B2 & B3 & _). pose proof (page_pos page Hpage).
  unfold abuf_pull. pose proof (I_len _ _ _ I) as L. pose proof (zlen_nonneg c).
  destruct (Z.eqb_spec n 0) as [->|N0]. { eauto. }
  destruct (ab_buf a) as [b|] eqn:Hb.
  2:{ exfalso. rewrite (I_null _ _ _ I Hb) in B1. lia. }
  destruct (Inv_some a c t I b Hb) as (r & y & E & R & F). pose proof (Inv_max a c t b I Hb) as M.
  set (c' := skipn (Z.to_nat n) c).
  assert (c = firstn (Z.to_nat n) c ++ c') as Ec by (symmetry; apply firstn_skipn).
  assert (zlen c' = zlen c - n) as Lc by (unfold c', zlen; rewrite skipn_length; unfold zlen in *; lia).
  unfold max_alloc in *. rewrite (u64_small (ab_len a - n)) by lia.
  (* the buffer after the move *)
  assert (exists b' r', (if n =? ab_len a then Some (Some b) else buf_move (Some b) 0 n (ab_len a - n)) = Some (Some b') /\
    b' = c' ++ r' ++ y /\ zlen r' = ab_total a - zlen c') as (b' & r' & -> & E' & R').
  { destruct (Z.eqb_spec n (ab_len a)) as [Q|Q].
    - exists b, (c ++ r). split; [reflexivity|]. assert (c' = []) as -> by (apply zlen_zero; lia).
      split; [rewrite E; now rewrite <- app_assoc|]. change (zlen []) with 0. rewrite zlen_app. lia.
    - unfold buf_move. set (h := firstn (Z.to_nat n) c) in *.
      assert (copy_out b n (Z.to_nat (ab_len a - n)) = Some c') as ->.
      { rewrite E, Ec. replace (Z.to_nat (ab_len a - n)) with (length c') by (unfold zlen in *; lia).
        rewrite <- app_assoc. apply copy_out_split. unfold h, zlen. rewrite firstn_length. unfold zlen in *. lia. }
      destruct (zsplit c (zlen c')) as (p1 & p2 & Ep & L1 & L2); [lia|].
      assert (b = [] ++ p1 ++ (p2 ++ r ++ y)) as Eb by (rewrite E, Ep; cbn [app]; now rewrite <- app_assoc).
      rewrite Eb. rewrite (copy_in_split c' [] p1 (p2 ++ r ++ y)); [|reflexivity|lia].
      eexists _, (p2 ++ r). split; [reflexivity|]. cbn [app]. split; [now rewrite <- app_assoc|]. rewrite zlen_app. lia. }
  assert (zlen b' <= max_alloc) as M' by (rewrite E'; rewrite E in M; rewrite !zlen_app in *; unfold max_alloc; lia).
  rewrite (u64_small (ab_len a - n + page)) by lia.
  destruct (Z.gtb_spec (ab_len a - n + page) (ab_total a)) as [G|G].
  - eexists. split; [reflexivity|]. eapply Inv_intro; cbn [ab_buf ab_len ab_total]; [reflexivity|exact E'|lia|lia|exact M'|discriminate].
  - rewrite (u64_small (ab_total a - page)) by lia.
    set (ns := if ab_total a - page <? page then page else ab_total a - page).
    assert (ab_total a - page <= ns <= ab_total a) as Hns by (unfold ns; destruct (Z.ltb_spec (ab_total a - page) page); lia).
    destruct (realloc e (Some b') ns) as [p|] eqn:Er.
    + destruct (realloc_mem e (Some b') ns p Er ltac:(lia)) as (A1 & A2 & A3).
      destruct (A3 c' (r' ++ y) E' ltac:(lia)) as (z & Ez).
      eexists. split; [reflexivity|]. eapply (Inv_intro _ c' false p z []); cbn [ab_buf ab_len ab_total]; [reflexivity| |lia| |lia|discriminate].
      * rewrite app_nil_r. exact Ez.
      * rewrite Ez in A2. rewrite zlen_app in A2. lia.
    + destruct (zsplit r' (ab_total a - page - zlen c')) as (q1 & q2 & Eq & Q1 & Q2); [lia|].
      eexists. split; [reflexivity|]. eapply (Inv_intro _ c' false b' q1 (q2 ++ y)); cbn [ab_buf ab_len ab_total]; [reflexivity| |lia|lia|exact M'|discriminate].
      rewrite E', Eq. now rewrite <- app_assoc.
Qed.

(** vsnprintf and strftime keep the content *)
Lemma write_room a c t d : Inv a c t -> zlen c + zlen d <= ab_total a ->
  exists b', buf_write (ab_buf a) (ab_len a) d = Some b' /\
    (d = [] \/ exists r' y, b' = Some (c ++ d ++ r' ++ y) /\ zlen (d ++ r') = ab_total a - zlen c) /\
    Inv {| ab_total := ab_total a; ab_len := ab_len a; ab_buf := b'; ab_err := ab_err a |} c
        (match d with [] => t | 0 :: _ => true | _ => false end).
Proof.
  intros I D. destruct d as [|z d].
  { exists (ab_buf a). split; [unfold buf_write; now destruct (ab_buf a)|]. split; [auto|]. destruct a; exact I. }
  destruct (ab_buf a) as [b|] eqn:Hb.
  - destruct (put_behind a c t (z :: d) (ab_len a) b I Hb D) as (a' & P & T & L & b' & r' & y & Hb' & E' & R' & M').
    unfold put_at in P. rewrite Hb in P. destruct (buf_write (Some b) (ab_len a) (z :: d)) as [bb|]; [|discriminate].
    injection P as <-. cbn [ab_buf ab_total ab_len] in *. subst bb. exists (Some b'). split; [reflexivity|].
    split; [right; exists r', y; subst b'; auto|].
    eapply (Inv_intro _ c _ b' ((z :: d) ++ r') y); cbn [ab_buf ab_len ab_total]; auto.
    * now rewrite E', <- app_assoc.
    * apply I.
    * destruct z; try discriminate. cbn [app]. eauto.
  - exfalso. pose proof (I_null _ _ _ I Hb). pose proof (zlen_nonneg c). pose proof (zlen_nonneg d). rewrite zlen_cons in D. lia.
Qed.

(** the buffer [b'] holds [c ++ s], terminated *)
Lemma Inv_app c s r' y l tot er : l = zlen c + zlen s -> zlen ((s ++ [0]) ++ r') = tot - zlen c ->
  zlen (c ++ (s ++ [0]) ++ r' ++ y) <= max_alloc ->
  Inv {| ab_total := tot; ab_len := l; ab_buf := Some (c ++ (s ++ [0]) ++ r' ++ y); ab_err := er |} (c ++ s) true.
Proof.
  intros -> R M. eapply (Inv_intro _ (c ++ s) true _ (0 :: r') y); cbn [ab_buf ab_len ab_total]; [reflexivity| | | |exact M|eauto].
  - rewrite <- !app_assoc. reflexivity.
  - now rewrite zlen_app.
  - rewrite <- app_assoc in R. cbn [app] in R. rewrite zlen_app in *. lia.
Qed.
Lemma vsn_fits a c t s : Inv a c t -> zlen c + zlen s + 1 <= ab_total a -> ab_total a <= max_alloc ->
  exists b, vsnprintf (ab_buf a) (ab_len a) (u64 (ab_total a - ab_len a)) s = Some b /\
    Inv {| ab_total := ab_total a; ab_len := u64 (ab_len a + zlen s); ab_buf := b; ab_err := ab_err a |} (c ++ s) true.
Proof.
  intros I S M. pose proof (I_len _ _ _ I) as L. pose proof (zlen_nonneg s). pose proof (zlen_nonneg c). unfold max_alloc in M.
  unfold vsnprintf. rewrite (u64_small (ab_total a - ab_len a)) by lia.
  destruct (Z.leb_spec (ab_total a - ab_len a) 0); [lia|].
  rewrite firstn_all2 by (unfold zlen in *; lia).
  destruct (write_room a c t (s ++ [0]) I) as (b & -> & [W|(r' & y & -> & R')] & I').
  - rewrite zlen_app. change (zlen [0]) with 1. lia.
  - destruct s; discriminate.
  - eexists. split; [reflexivity|]. apply Inv_app; auto.
    + rewrite u64_small; lia.
    + pose proof (Inv_max _ _ _ _ I' eq_refl) as Q. exact Q.
Qed.

Lemma vsn_any a c t s : Inv a c t -> exists b, vsnprintf (ab_buf a) (ab_len a) (u64 (ab_total a - ab_len a)) s = Some b /\
   exists t', Inv {| ab_total := ab_total a; ab_len := ab_len a; ab_buf := b; ab_err := ab_err a |} c t'.
Proof.
  intros I. pose proof (Inv_bounds a c t I) as (B1 & B2 & B3 & _). unfold vsnprintf. unfold max_alloc in *. rewrite u64_small by lia.
  destruct (Z.leb_spec (ab_total a - ab_len a) 0).
  - eexists. split; [reflexivity|]. exists t. destruct a; exact I.
  - destruct (write_room a c t (firstn (Z.to_nat (ab_total a - ab_len a - 1)) s ++ [0]) I) as (b & -> & _ & I').
    + rewrite zlen_app. change (zlen [0]) with 1. rewrite <- (I_len _ _ _ I). unfold zlen. rewrite firstn_length. lia.
    + eexists. split; [reflexivity|]. eauto.
Qed.

Lemma put_zero a c t er : Inv a c t -> ab_len a < ab_total a ->
  exists a', put_at {| ab_total := ab_total a; ab_len := ab_len a; ab_buf := ab_buf a; ab_err := er |} (ab_len a) [0] (ab_len a) = Some a' /\ Inv a' c true.
Proof.
  intros I T. unfold put_at. cbn [ab_buf ab_total ab_len ab_err].
  destruct (write_room a c t [0] I) as (b & -> & _ & I'); [rewrite <- (I_len _ _ _ I); change (zlen [0]) with 1; lia|].
  eexists. split; [reflexivity|]. destruct I' as [X1 X2 X3 X4]. split; auto.
Qed.
Lemma Inv_weaken a c : Inv a c true -> forall t, Inv a c t.
Proof. intros [L N M (r & y & E & T & F)] t. split; auto. exists r, y. split; [auto|]. split; auto. Qed.

Lemma appendf_spec e a c t x : Inv a c t -> aop_ok (c, t) e (AAppendf x) ->
  exists r a', abuf_appendf page e a x = Some (r, a') /\
    (r = zlen x /\ Inv a' (c ++ x) true \/ r = -1 /\ Inv a' c t /\ may_fail page c e (AAppendf x)).
Proof.
  intros I (X & FL). pose proof (Inv_bounds a c t I) as (B1 & B2 & B3 & B4). pose proof (zlen_nonneg x). pose proof (page_pos page Hpage).
  unfold max_alloc, max_obj in *. unfold abuf_appendf. pose proof (I_len _ _ _ I) as L. pose proof (zlen_nonneg c).
  destruct (Z.leb_spec (ab_total a) (ab_len a + zlen x)) as [G|G].
  - destruct (vsn_any a c t x I) as (b & -> & t' & I'). cbn [ab_len ab_total ab_buf ab_err].
    rewrite (u64_small (ab_len a + zlen x)) by lia.
    rewrite Z.geb_leb. destruct (Z.leb_spec (ab_total a) (ab_len a + zlen x)); [|lia].
    destruct (enlarge_spec e _ c t' (ab_len a + zlen x) I') as (r & a1 & -> & I1 & T1 & [(-> & N1 & b1 & Hb)|(-> & -> & W)]); [lia| |]; cbn [ab_len ab_total ab_buf ab_err] in *.
    + change (0 <? 0) with false. cbn iota. pose proof (Inv_bounds _ _ _ I1) as (C1 & C2 & C3 & _). unfold max_alloc in *.
      destruct (vsn_fits a1 c t' x I1) as (b2 & -> & I2); [lia|exact C2|].
      eexists _, _. split; [reflexivity|]. left. split; [reflexivity|].
      rewrite (I_len _ _ _ I1) in I2. rewrite <- L in I2. rewrite u64_small in I2 by lia. exact I2.
    + change (-1 <? 0) with true. cbn iota.
      destruct FL as [Ht|(Eo & Cc)].
      * destruct (put_zero _ c t' true I') as (a2 & P & I2); [cbn; apply B4, Ht|].
        cbn [ab_len ab_total ab_buf ab_err] in P. rewrite P. eexists _, _. split; [reflexivity|].
        right. split; [reflexivity|]. split; [now apply Inv_weaken|].
        split; [exact Logic.I|]. cbn [added]. unfold max_alloc, max_obj. destruct W; [auto|]. right. left. unfold max_alloc in *. lia.
      * exfalso. destruct W as [W|W]; [congruence|]. unfold max_alloc in W. lia.
  - destruct (vsn_fits a c t x I) as (b2 & -> & I2); [lia|exact B2|]. cbn [ab_len ab_total ab_buf ab_err].
    rewrite (u64_small (ab_len a + zlen x)) in * by lia.
    rewrite Z.geb_leb. destruct (Z.leb_spec (ab_total a) (ab_len a + zlen x)); [lia|].
    eexists _, _. split; [reflexivity|]. left. auto.
Qed.

(** strftime: success puts the text behind the content *)
Lemma strft a c t s j : Inv a c t -> zlen s <= 2147483647 ->
  exists rc b, strftime (ab_buf a) (ab_len a) (u64 (ab_total a - ab_len a)) s j = Some (rc, b) /\
   (rc = zlen s /\ zlen c + zlen s + 1 <= ab_total a /\
      Inv {| ab_total := ab_total a; ab_len := u64 (ab_len a + rc); ab_buf := b; ab_err := ab_err a |} (c ++ s) true /\
      (exists t', Inv {| ab_total := ab_total a; ab_len := ab_len a; ab_buf := b; ab_err := ab_err a |} c t')
    \/ rc = 0 /\ ab_total a < zlen c + zlen s + 1 /\
      exists t', Inv {| ab_total := ab_total a; ab_len := ab_len a; ab_buf := b; ab_err := ab_err a |} c t').
Proof.
  intros I Sl. pose proof (Inv_bounds a c t I) as (B1 & B2 & B3 & _). unfold strftime. unfold max_alloc in *. rewrite u64_small by lia.
  pose proof (I_len _ _ _ I) as L. pose proof (zlen_nonneg c). pose proof (zlen_nonneg s).
  destruct (Z.leb_spec (zlen s + 1) (ab_total a - ab_len a)).
  - destruct (write_room a c t (s ++ [0]) I) as (b & -> & [W|(r' & y & -> & R')] & I').
    + rewrite zlen_app. change (zlen [0]) with 1. lia.
    + destruct s; discriminate.
    + eexists _, _. split; [reflexivity|]. left. split; [reflexivity|]. split; [lia|]. split; [|eauto].
      apply Inv_app; auto.
      * rewrite u64_small; lia.
      * pose proof (Inv_max _ _ _ _ I' eq_refl) as Q. exact Q.
  - destruct (write_room a c t (firstn (Z.to_nat (ab_total a - ab_len a)) j) I) as (b & -> & _ & I').
    + rewrite <- L. unfold zlen. rewrite firstn_length. lia.
    + eexists _, _. split; [reflexivity|]. right. split; [reflexivity|]. split; [lia|]. eauto.
Qed.

Lemma strftime_spec e a c t x j : Inv a c t -> aop_ok (c, t) e (AStrftime x j) ->
  exists r a', abuf_strftime page e a x j = Some (r, a') /\
    (r = zlen x /\ Inv a' (c ++ x) true \/ r = -1 /\ Inv a' c t /\ may_fail page c e (AStrftime x j)).
Proof.
  intros I (X & Ht). pose proof (Inv_bounds a c t I) as (B1 & B2 & B3 & B4). specialize (B4 Ht). pose proof (zlen_nonneg x). pose proof (page_pos page Hpage).
  unfold max_alloc, max_obj in *. unfold abuf_strftime. pose proof (I_len _ _ _ I) as L. pose proof (zlen_nonneg c).
  assert (forall a1 t1, Inv a1 c t1 -> ab_len a1 < ab_total a1 -> may_fail page c e (AStrftime x j) ->
     exists r a', (match put_at a1 (ab_len a1) [0] (ab_len a1) with None => None | Some a => Some (-1, a) end) = Some (r, a') /\
       (r = zlen x /\ Inv a' (c ++ x) true \/ r = -1 /\ Inv a' c t /\ may_fail page c e (AStrftime x j))) as ZERO.
  { intros a1 t1 I1 T1 MF. destruct (put_zero a1 c t1 (ab_err a1) I1 T1) as (a2 & P & I2).
    assert ({| ab_total := ab_total a1; ab_len := ab_len a1; ab_buf := ab_buf a1; ab_err := ab_err a1 |} = a1) as Ea by (now destruct a1).
    rewrite Ea in P. rewrite P. eexists _, _. split; [reflexivity|]. right. split; [reflexivity|]. split; [now apply Inv_weaken|exact MF]. }
  destruct (strft a c t x j I X) as (rc & b & -> & [(-> & FIT & I1 & t' & I1')|(-> & NF & t' & I1')]).
  - destruct (Z.eqb_spec (zlen x) 0) as [Z0|Z0].
    + cbn [ab_len ab_total ab_buf ab_err]. rewrite (u64_small (ab_total a + page)) by lia.
      assert (may_fail page c e (AStrftime x j)) as MF.
      { split; [exact Logic.I|]. right. right. exists x, j. split; auto. left. now apply zlen_zero. }
      destruct (enlarge_spec e _ c t' (ab_total a + page) I1') as (r & a2 & -> & I2 & T2 & [(-> & N2 & b2 & Hb2)|(-> & -> & W)]); [lia| |]; cbn [ab_len ab_total ab_buf ab_err] in *.
      * change (0 <? 0) with false. cbn iota. pose proof (I_len _ _ _ I2).
        destruct (strft a2 c t' x j I2 X) as (rc & b3 & -> & [(-> & F3 & I3 & t3 & I3')|(-> & NF & t3 & I3')]).
        -- replace (zlen x =? 0) with true by (symmetry; now apply Z.eqb_eq). apply (ZERO _ t3 I3'); auto. cbn. lia.
        -- cbn [Z.eqb]. apply (ZERO _ t3 I3'); auto. cbn. lia.
      * change (-1 <? 0) with true. cbn iota. apply (ZERO {| ab_total := ab_total a; ab_len := ab_len a; ab_buf := b; ab_err := true |} t'); auto.
    + eexists _, _. split; [reflexivity|]. left. auto.
  - cbn [ab_len ab_total ab_buf ab_err Z.eqb]. rewrite (u64_small (ab_total a + page)) by lia.
    destruct (enlarge_spec e _ c t' (ab_total a + page) I1') as (r & a2 & -> & I2 & T2 & [(-> & N2 & b2 & Hb2)|(-> & -> & W)]); [lia| |]; cbn [ab_len ab_total ab_buf ab_err] in *.
    + change (0 <? 0) with false. cbn iota. pose proof (I_len _ _ _ I2).
      destruct (strft a2 c t' x j I2 X) as (rc & b3 & -> & [(-> & F3 & I3 & t3 & I3')|(-> & NF3 & t3 & I3')]).
      * destruct (Z.eqb_spec (zlen x) 0) as [Z0|Z0].
        -- apply (ZERO _ t3 I3'); [cbn; lia|]. split; [exact Logic.I|]. right. right. exists x, j. split; auto. left. now apply zlen_zero.
        -- eexists _, _. split; [reflexivity|]. left. auto.
      * cbn [Z.eqb]. apply (ZERO _ t3 I3'); [cbn; lia|]. split; [exact Logic.I|]. right. right. exists x, j. split; auto. right. lia.
    + change (-1 <? 0) with true. cbn iota. apply (ZERO {| ab_total := ab_total a; ab_len := ab_len a; ab_buf := b; ab_err := true |} t'); auto. split; [exact Logic.I|]. cbn [added].
      destruct W as [W|W]; [auto|]. right. left. unfold max_alloc, max_obj in *. lia.
Qed.

Lemma clear_spec a c t : Inv a c t -> exists a', abuf_clear a = Some a' /\ Inv a' [] t.
Proof.
  intros I. pose proof (Inv_bounds a c t I) as (B1 & B2 & B3 & B4). unfold abuf_clear.
  destruct (ab_buf a) as [b|] eqn:Hb.
  - destruct (Inv_some a c t I b Hb) as (r & y & E & R & F). pose proof (Inv_max a c t b I Hb) as M.
    unfold buf_write. assert (b = [] ++ (c ++ r) ++ y) as Eb by (cbn [app]; now rewrite <- app_assoc).
    assert (zlen (c ++ r) = ab_total a) as T by (rewrite zlen_app; lia).
    rewrite Eb, (copy_in_split (repeat 0 (Z.to_nat (ab_total a))) [] (c ++ r) y); [|reflexivity|rewrite zlen_repeat; lia].
    eexists. split; [reflexivity|]. eapply (Inv_intro _ [] t _ (repeat 0 (Z.to_nat (ab_total a))) y); cbn [ab_buf ab_len ab_total app]; [reflexivity|reflexivity|reflexivity| | |].
    + rewrite zlen_repeat. change (zlen []) with 0. lia.
    + rewrite Eb in M. cbn [app] in M. rewrite zlen_app in M. rewrite zlen_app, zlen_repeat. lia.
    + intros Ht. specialize (B4 Ht). destruct (Z.to_nat (ab_total a)) as [|k] eqn:K; [lia|]. cbn. eauto.
  - rewrite (I_null _ _ _ I Hb) in *. cbn. eexists. split; [reflexivity|].
    destruct t; [specialize (B4 eq_refl); lia|]. split; cbn; auto; try discriminate.
    exists [], []. cbn. split; [reflexivity|]. split; [reflexivity|discriminate].
Qed.

Lemma setlen_spec a c t n : Inv a c t -> (0 <= n < zlen c \/ n = zlen c /\ t = true) ->
  exists a', abuf_setlen a n = Some a' /\ Inv a' (firstn (Z.to_nat n) c) true.
Proof.
  intros I N. pose proof (Inv_bounds a c t I) as (B1 & B2 & B3 & B4). unfold abuf_setlen.
  pose proof (I_len _ _ _ I) as L. pose proof (zlen_nonneg c).
  assert (n < ab_total a) as NT by (destruct N as [N|(-> & Ht)]; [lia|specialize (B4 Ht); lia]).
  assert (0 <= n <= zlen c) as Nc by lia.
  destruct (ab_buf a) as [b|] eqn:Hb; [|rewrite (I_null _ _ _ I Hb) in *; lia].
  destruct (Inv_some a c t I b Hb) as (r & y & E & R & F). pose proof (Inv_max a c t b I Hb) as M.
  destruct (zsplit (c ++ r) n) as (p & q & Ep & Lp & Lq); [rewrite zlen_app; lia|]. rewrite zlen_app in Lq.
  destruct q as [|z q]; [change (zlen []) with 0 in Lq; lia|].
  assert (firstn (Z.to_nat n) c = p) as ->.
  { assert (p = firstn (Z.to_nat n) (c ++ r)) as -> by (rewrite Ep, firstn_app; unfold zlen in Lp; rewrite firstn_all2 by lia; replace (Z.to_nat n - length p)%nat with 0%nat by lia; now rewrite app_nil_r).
    rewrite firstn_app. unfold zlen in Nc. replace (Z.to_nat n - length c)%nat with 0%nat by lia. now rewrite app_nil_r. }
  assert (b = p ++ z :: (q ++ y)) as Eb by (rewrite E, app_assoc, Ep, <- app_assoc; reflexivity).
  unfold buf_write. cbn [copy_in]. rewrite Eb, zset_split by lia.
  rewrite Z.gtb_ltb. destruct (Z.ltb_spec n (ab_total a)); [|lia].
  eexists. split; [reflexivity|]. eapply (Inv_intro _ p true _ (0 :: q) y); cbn [ab_buf ab_len ab_total]; [reflexivity|reflexivity|lia| | |eauto].
  - rewrite zlen_cons in *. lia.
  - rewrite Eb in M. rewrite !zlen_app, !zlen_cons in *. lia.
Qed.

Lemma step_spec e a c t o : Inv a c t -> aop_ok (c, t) e o ->
  exists r a', astep page e a o = Some (r, a') /\ (r = ares o \/ r = -1 /\ may_fail page c e o) /\
    Inv a' (fst (aspec (c, t) o r)) (snd (aspec (c, t) o r)).
Proof.
  intros I OK.
  assert (forall r a' c1 t1 c2 t2, (r = ares o /\ Inv a' c1 t1 \/ r = -1 /\ Inv a' c2 t2 /\ may_fail page c e o) ->
    (0 <= ares o -> aspec (c, t) o (ares o) = (c1, t1)) -> (c2, t2) = (c, t) -> 0 <= ares o ->
    (r = ares o \/ r = -1 /\ may_fail page c e o) /\ Inv a' (fst (aspec (c, t) o r)) (snd (aspec (c, t) o r))) as G.
  { intros r a' c1 t1 c2 t2 H Q1 Q2 A. injection Q2 as -> ->. destruct H as [(-> & H)|(-> & H & MF)].
    - split; [auto|]. rewrite Q1 by auto. exact H.
    - split; [auto|]. exact H. }
  assert (forall z, 0 <= z -> (z <? 0) = false) as LT by (intros; apply Z.ltb_ge; lia).
  destruct o; cbn [astep].
  - destruct (puts_spec e a c t s I OK) as (r & a' & -> & H). eexists _, _. split; [reflexivity|].
    pose proof (zlen_nonneg s). eapply G; eauto. intros Z. unfold aspec. now rewrite LT.
  - destruct (memcpy_spec e a c t p I OK) as (r & a' & -> & H). eexists _, _. split; [reflexivity|]. eapply G; eauto. cbn. lia.
  - destruct (prepend_spec e a c t p I OK) as (r & a' & -> & H). eexists _, _. split; [reflexivity|]. eapply G; eauto. cbn. lia.
  - destruct (pull_spec e a c t n I OK) as (a' & -> & H). eexists _, _. split; [reflexivity|]. split; [auto|]. exact H.
  - destruct (appendf_spec e a c t s I OK) as (r & a' & -> & H). eexists _, _. split; [reflexivity|].
    pose proof (zlen_nonneg s). eapply G; eauto. intros Z. unfold aspec. now rewrite LT.
  - destruct (strftime_spec e a c t s junk I OK) as (r & a' & -> & H). eexists _, _. split; [reflexivity|].
    pose proof (zlen_nonneg s). eapply G; eauto. intros Z. unfold aspec. now rewrite LT.
  - destruct (clear_spec a c t I) as (a' & -> & H). eexists _, _. split; [reflexivity|]. split; [auto|]. exact H.
  - destruct (setlen_spec a c t n I OK) as (a' & -> & H). eexists _, _. split; [reflexivity|]. split; [auto|]. exact H.
  - eexists _, _. split; [reflexivity|]. split; [auto|]. cbn. split; cbn; auto.
    + vm_compute. discriminate.
    + exists [], []. cbn. split; auto. split; auto. discriminate.
Qed.

Lemma Inv_init : Inv {| ab_total := page; ab_len := 0; ab_buf := Some (repeat 0 (Z.to_nat page)); ab_err := false |} [] true.
Proof.
  pose proof (page_pos page Hpage). eapply (Inv_intro _ [] true _ (repeat 0 (Z.to_nat page)) []); cbn [ab_buf ab_len ab_total app]; [reflexivity|now rewrite app_nil_r|reflexivity| | |].
  - rewrite zlen_repeat. change (zlen []) with 0. lia.
  - rewrite zlen_repeat. unfold max_alloc. lia.
  - intros _. destruct (Z.to_nat page) as [|k] eqn:K; [lia|]. cbn. eauto.
Qed.

Lemma Inv_content a c t : Inv a c t -> abuf_content a = Some c /\ ab_len a = zlen c /\
  (t = true -> exists b r, ab_buf a = Some b /\ b = c ++ 0 :: r).
Proof.
  intros I. pose proof (Inv_bounds a c t I) as (B1 & B2 & B3 & B4). pose proof (I_len _ _ _ I) as L.
  split; [|split; [exact L|]].
  - unfold abuf_content. destruct (ab_buf a) as [b|] eqn:Hb.
    + destruct (Inv_some a c t I b Hb) as (r & y & E & R & F). rewrite E, L.
      replace (Z.to_nat (zlen c)) with (length c) by (unfold zlen; lia).
      change (c ++ r ++ y) with ([] ++ c ++ (r ++ y)). now apply copy_out_split.
    + rewrite (I_null _ _ _ I Hb) in B1. pose proof (zlen_nonneg c). assert (c = []) as -> by (apply zlen_zero; lia).
      rewrite L. reflexivity.
  - intros Ht. destruct (ab_buf a) as [b|] eqn:Hb; [|specialize (B4 Ht); rewrite (I_null _ _ _ I Hb) in *; lia].
    destruct (Inv_some a c t I b Hb) as (r & y & E & R & F). destruct (F Ht) as (r' & ->). exists b, (r' ++ y).
    split; [reflexivity|exact E].
Qed.

Lemma reach_inv s a : Reach page s a -> Inv a (fst s) (snd s).
Proof.
  induction 1 as [a [= <-]|s a e o r a' _ IH OK E]; [apply Inv_init|].
  destruct s as [c t]. cbn [fst snd] in IH. destruct (step_spec e a c t o IH OK) as (r1 & a1 & E1 & _ & I1).
  rewrite E1 in E. injection E as -> ->. exact I1.
Qed.
End Page.
