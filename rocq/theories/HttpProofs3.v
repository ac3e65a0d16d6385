(** Proofs about HTTP requests: what follows the header does not matter. *)
From Verif Require Import Base BitsModel StrBase BufLemmas SplitLemmas NetaddrModel CompModel StringModel StringSpec StringProofs StringProps HttpModel HttpSpec HttpProofs HttpProofs2.

(** text with a blank line at its end, or the rest of one *)
Definition T (w : bytes) : Prop := exists p m, w = p ++ m /\ (m = END1 \/ m = END2 \/ m = [10; 13; 10]).
Definition Tail (w : bytes) : Prop := T w \/ w = CRLF \/ w = LF.
Lemma Ends_T t : Ends t -> T t.
Proof. intros (p & [-> | ->]); [exists p, END1|exists p, END2]; auto. Qed.
Lemma T_cons c w : T (c :: w) -> T w \/ c = 10 /\ (w = CRLF \/ w = LF).
Proof.
  intros (p & m & E & M). destruct p as [|x p]; [|injection E as -> ->; left; exists p, m; auto]. cbn in E. destruct M as [-> |[-> | ->]]; injection E as -> ->; auto. left. exists [], [10; 13; 10]. auto.
Qed.
Lemma T_nil : ~ T [].
Proof. intros (p & m & E & M). destruct p; [|discriminate]. destruct M as [-> |[-> | ->]]; discriminate. Qed.
Lemma T_one c : ~ T [c].
Proof. intros H. destruct (T_cons _ _ H) as [H1|(_ & [H1|H1])]; [exact (T_nil H1)|discriminate|discriminate]. Qed.
Lemma T_len w : T w -> 2 <= zlen w.
Proof. destruct w as [|a [|b w]]; intros H; [destruct (T_nil H)|destruct (T_one _ H)|]. rewrite !zlen_cons. pose proof (zlen_nonneg w). lia. Qed.
Lemma T_Tail c w : T (c :: w) -> Tail w.
Proof. intros H. destruct (T_cons _ _ H) as [H1|(_ & H1)]; unfold Tail; tauto. Qed.
Lemma T_not10 c w : T (c :: w) -> c <> 10 -> T w.
Proof. intros H N. destruct (T_cons _ _ H) as [H1|(H1 & _)]; [exact H1|contradiction]. Qed.

Lemma req_indep w : T w -> forall pos u v, exists a w' u' v', Tail w' /\
  (forall r k, 0 <= k -> req_line (w ++ r) pos (zlen w + k) u v = LOk (a ++ [0]) (w' ++ r) (pos + zlen a + 1) (zlen w' + k) u' v') /\
  (u' = u \/ exists i, u' = Some (pos + i) /\ 0 <= i <= zlen a) /\ (v' = v \/ exists i, v' = Some (pos + i) /\ 0 <= i <= zlen a) /\
  is_prefix (text a) w = true.
Proof.
  induction w as [|c w IH]; intros H pos u v; [destruct (T_nil H)|]. pose proof (T_len _ H) as L. pose proof (zlen_nonneg w) as L0.
  assert (forall b u1 v1, c <> 10 -> (b = 0 \/ b = c) -> exists a w' u' v', Tail w' /\
    (forall r k, 0 <= k -> lpush [b] (req_line (w ++ r) (pos + 1) (zlen w + k) u1 v1) = LOk (a ++ [0]) (w' ++ r) (pos + zlen a + 1) (zlen w' + k) u' v') /\
    (u' = u1 \/ exists i, u' = Some (pos + i) /\ 1 <= i <= zlen a) /\ (v' = v1 \/ exists i, v' = Some (pos + i) /\ 1 <= i <= zlen a) /\ is_prefix (text a) (c :: w) = true /\ 1 <= zlen a) as H1.
  { intros b u1 v1 N B. destruct (IH (T_not10 _ _ H N) (pos + 1) u1 v1) as (a & w' & u' & v' & A1 & A2 & A3 & A4 & A5). exists (b :: a), w', u', v'. rewrite zlen_cons. pose proof (zlen_nonneg a). split; [exact A1|]. split.
    - intros r k K. rewrite (A2 r k K). cbn [lpush app]. f_equal. lia.
    - split; [destruct A3 as [A3|(i & A3 & A3')]; [left; exact A3|right; exists (i + 1); rewrite A3; split; [f_equal; lia|lia]]|]. split; [destruct A4 as [A4|(i & A4 & A4')]; [left; exact A4|right; exists (i + 1); rewrite A4; split; [f_equal; lia|lia]]|].
      split; [|lia]. cbn [text]. destruct (Z.eqb_spec b 0); [reflexivity|]. destruct B as [B|B]; [contradiction|]. cbn [is_prefix]. subst b. rewrite Z.eqb_refl. exact A5. }
  assert (forall (r : bytes) k, 0 <= k -> (zlen (c :: w) + k <? 2) = false) as Lk by (intros r k K; apply Z.ltb_ge; lia).
  assert (forall k, zlen (c :: w) + k - 1 = zlen w + k) as Lm by (intros k; rewrite zlen_cons; lia).
  destruct ((c =? 32) && match v with None => true | _ => false end) eqn:C1.
  - assert (c <> 10) as N by (apply andb_true_iff in C1; destruct C1 as (C1 & _); apply Z.eqb_eq in C1; lia).
    destruct u as [u|].
    + destruct (H1 0 (Some u) (Some (pos + 1)) N (or_introl eq_refl)) as (a & w' & u' & v' & A1 & A2 & A3 & A4 & A5 & A6). exists a, w', u', v'. split; [exact A1|]. split.
      * intros r k K. cbn [app req_line]. rewrite (Lk r k K), C1, Lm. apply A2, K.
      * split; [destruct A3 as [A3|(i & A3 & A3')]; [left; exact A3|right; exists i; split; [exact A3|lia]]|]. split; [right; destruct A4 as [A4|(i & A4 & A4')]; [exists 1|exists i]; (split; [exact A4|lia])|exact A5].
    + destruct (H1 0 (Some (pos + 1)) v N (or_introl eq_refl)) as (a & w' & u' & v' & A1 & A2 & A3 & A4 & A5 & A6). exists a, w', u', v'. split; [exact A1|]. split.
      * intros r k K. cbn [app req_line]. rewrite (Lk r k K), C1, Lm. apply A2, K.
      * split; [right; destruct A3 as [A3|(i & A3 & A3')]; [exists 1|exists i]; (split; [exact A3|lia])|]. split; [destruct A4 as [A4|(i & A4 & A4')]; [left; exact A4|right; exists i; split; [exact A4|lia]]|exact A5].
  - assert (forall b, c <> 10 -> (b = 0 \/ b = c) -> exists a w' u' v', Tail w' /\
      (forall r k, 0 <= k -> lpush [b] (req_line (w ++ r) (pos + 1) (zlen w + k) u v) = LOk (a ++ [0]) (w' ++ r) (pos + zlen a + 1) (zlen w' + k) u' v') /\
      (u' = u \/ exists i, u' = Some (pos + i) /\ 0 <= i <= zlen a) /\ (v' = v \/ exists i, v' = Some (pos + i) /\ 0 <= i <= zlen a) /\ is_prefix (text a) (c :: w) = true) as H2.
    { intros b N B. destruct (H1 b u v N B) as (a & w' & u' & v' & A1 & A2 & A3 & A4 & A5 & A6). exists a, w', u', v'. split; [exact A1|]. split; [exact A2|].
      split; [destruct A3 as [A3|(i & A3 & A3')]; [left; exact A3|right; exists i; split; [exact A3|lia]]|]. split; [destruct A4 as [A4|(i & A4 & A4')]; [left; exact A4|right; exists i; split; [exact A4|lia]]|exact A5]. }
    destruct (Z.eqb_spec c 13) as [E13|N13].
    + destruct (H2 0 ltac:(lia) (or_introl eq_refl)) as (a & w' & u' & v' & A1 & A2 & A3). exists a, w', u', v'. split; [exact A1|]. split; [|exact A3]. intros r k K. cbn [app req_line]. rewrite (Lk r k K), C1, Lm. rewrite E13. change (13 =? 13) with true. cbn iota. apply A2, K.
    + destruct (Z.eqb_spec c 10) as [E10|N10].
      * exists [], w, u, v. split; [exact (T_Tail _ _ H)|]. split; [|split; [left; reflexivity|split; [left; reflexivity|reflexivity]]]. intros r k K. cbn [app req_line]. rewrite (Lk r k K), C1, Lm. rewrite (proj2 (Z.eqb_neq c 13) N13), E10. change (10 =? 10) with true. cbn iota. change (zlen []) with 0. f_equal. lia.
      * destruct (H2 c N10 (or_intror eq_refl)) as (a & w' & u' & v' & A1 & A2 & A3). exists a, w', u', v'. split; [exact A1|]. split; [|exact A3]. intros r k K. cbn [app req_line]. rewrite (Lk r k K), C1, Lm. rewrite (proj2 (Z.eqb_neq c 13) N13), (proj2 (Z.eqb_neq c 10) N10). apply A2, K.
Qed.
Lemma name_indep w : T w -> forall pos, (forall r k, 0 <= k -> field_name (w ++ r) pos (zlen w + k) = NErr) \/
  exists a w', T w' /\ zlen w' < zlen w /\ forall r k, 0 <= k -> field_name (w ++ r) pos (zlen w + k) = NOk (a ++ [0]) (w' ++ r) (pos + zlen a + 1) (zlen w' + k).
Proof.
  induction w as [|c w IH]; intros H pos; [destruct (T_nil H)|]. pose proof (zlen_nonneg w) as L0.
  assert (forall (r : bytes) k, 0 <= k -> (zlen (c :: w) + k <? 1) = false) as Lk by (intros r k K; rewrite zlen_cons; apply Z.ltb_ge; lia).
  assert (forall k, zlen (c :: w) + k - 1 = zlen w + k) as Lm by (intros k; rewrite zlen_cons; lia).
  assert (forall b, c <> 10 -> (forall r k, 0 <= k -> npush [b] (field_name (w ++ r) (pos + 1) (zlen w + k)) = NErr) \/
    exists a w', T w' /\ zlen w' < zlen (c :: w) /\ forall r k, 0 <= k -> npush [b] (field_name (w ++ r) (pos + 1) (zlen w + k)) = NOk (a ++ [0]) (w' ++ r) (pos + zlen a + 1) (zlen w' + k)) as H1.
  { intros b N. destruct (IH (T_not10 _ _ H N) (pos + 1)) as [A|(a & w' & A1 & A2 & A3)].
    - left. intros r k K. rewrite (A r k K). reflexivity.
    - right. exists (b :: a), w'. split; [exact A1|]. rewrite !zlen_cons. split; [lia|]. intros r k K. rewrite (A3 r k K). cbn [npush app]. f_equal. lia. }
  destruct (Z.eqb_spec c 58) as [E|N58].
  - right. exists [], w. split; [apply (T_not10 c w H); lia|]. rewrite zlen_cons. split; [lia|]. intros r k K. cbn [app field_name]. rewrite <- zlen_cons with (x := c). rewrite (Lk r k K), E. change (58 =? 58) with true. cbn iota. rewrite <- E, Lm. change (zlen []) with 0. f_equal. lia.
  - destruct ((c =? 32) || (c =? 9)) eqn:C1.
    + destruct (H1 0) as [A|(a & w' & A1 & A2 & A3)]; [apply orb_true_iff in C1; rewrite !Z.eqb_eq in C1; lia|left|right].
      * intros r k K. cbn [app field_name]. rewrite (Lk r k K), (proj2 (Z.eqb_neq c 58) N58), C1, Lm. apply A, K.
      * exists a, w'. split; [exact A1|]. split; [exact A2|]. intros r k K. cbn [app field_name]. rewrite (Lk r k K), (proj2 (Z.eqb_neq c 58) N58), C1, Lm. apply A3, K.
    + destruct ((c =? 10) || (c =? 13)) eqn:C2.
      * left. intros r k K. cbn [app field_name]. rewrite (Lk r k K), (proj2 (Z.eqb_neq c 58) N58), C1, C2. reflexivity.
      * destruct (H1 c) as [A|(a & w' & A1 & A2 & A3)]; [apply orb_false_iff in C2; rewrite !Z.eqb_neq in C2; lia|left|right].
        -- intros r k K. cbn [app field_name]. rewrite (Lk r k K), (proj2 (Z.eqb_neq c 58) N58), C1, C2, Lm. apply A, K.
        -- exists a, w'. split; [exact A1|]. split; [exact A2|]. intros r k K. cbn [app field_name]. rewrite (Lk r k K), (proj2 (Z.eqb_neq c 58) N58), C1, C2, Lm. apply A3, K.
Qed.
(** outcome of [field_value] on [w] and anything behind it *)
Definition vout (w : bytes) (pos : Z) (value : option Z) (f : bytes -> Z -> vres) : Prop :=
  exists a b w' v, Tail w' /\ zlen w' < zlen w /\ (forall r k, 0 <= k -> f r k = VOk (a ++ 0 :: b) (w' ++ r) (pos + zlen (a ++ 0 :: b)) (zlen w' + k) v) /\
    (value = Some v \/ pos <= v <= pos + zlen a).
Lemma vout_push bs y w pos value value' f : vout y (pos + zlen bs) value' f -> zlen y < zlen w -> (value' = value \/ exists v, value' = Some v /\ value = None /\ v = pos) ->
  vout w pos value (fun r k => vpush bs (f r k)).
Proof.
  intros (a & b & w' & v & A1 & A2 & A3 & A4) L V. exists (bs ++ a), b, w', v. split; [exact A1|]. split; [lia|]. split.
  - intros r k K. rewrite (A3 r k K). cbn [vpush]. rewrite <- !app_assoc. f_equal. rewrite !zlen_app. lia.
  - rewrite zlen_app. pose proof (zlen_nonneg bs). pose proof (zlen_nonneg a). destruct V as [-> |(v0 & -> & -> & ->)]; [destruct A4 as [A4|A4]; [left; exact A4|right; lia]|]. right. destruct A4 as [A4|A4]; [injection A4 as <-; lia|lia].
Qed.
Lemma vout_ext w pos value f g : (forall r k, 0 <= k -> f r k = g r k) -> vout w pos value f -> vout w pos value g.
Proof. intros E (a & b & w' & v & A1 & A2 & A3 & A4). exists a, b, w', v. split; [exact A1|]. split; [exact A2|]. split; [|exact A4]. intros r k K. rewrite <- E by exact K. apply A3, K. Qed.
Lemma fv_13 c c1 y pos len value : c = 13 -> c1 <> 10 -> 2 <= len ->
  field_value (c :: c1 :: y) pos len value = vpush [13] (field_value (c1 :: y) (pos + 1) (len - 1) (match value with None => if tabsp c then None else Some pos | _ => value end)).
Proof.
  intros E N L. remember (c1 :: y) as z eqn:Ez. cbn [field_value]. destruct (Z.ltb_spec len 1); [lia|]. destruct (Z.ltb_spec len 2); [lia|]. rewrite (proj2 (Z.eqb_eq c 13) E). rewrite (proj2 (Z.eqb_neq c 10)) by lia.
  destruct z as [|c2 z]; [discriminate|]. injection Ez as -> ->. rewrite (proj2 (Z.eqb_neq c1 10) N). reflexivity.
Qed.
Lemma value_indep n : forall w, (length w <= n)%nat -> T w -> forall pos value, vout w pos value (fun r k => field_value (w ++ r) pos (zlen w + k) value).
Proof.
  induction n as [|n IH]; intros w Ln H pos value; [destruct w; [destruct (T_nil H)|cbn in Ln; lia]|].
  destruct w as [|c w]; [destruct (T_nil H)|]. cbn [length] in Ln. pose proof (zlen_nonneg w) as L0.
  set (value' := match value with None => if tabsp c then None else Some pos | _ => value end).
  set (final := match value' with None => pos | Some v => v end).
  assert (value' = value \/ exists v, value' = Some v /\ value = None /\ v = pos) as V by (unfold value'; destruct value; auto; destruct (tabsp c); eauto).
  assert (value = Some final \/ final = pos) as Vf by (unfold final, value'; destruct value; auto; destruct (tabsp c); auto).
  destruct (Z.eqb_spec c 10) as [E10|N10].
  - destruct w as [|c1 w]; [destruct (T_one _ H)|]. destruct (tabsp c1) eqn:Tb.
    + assert (T w) as Tw. { assert (c1 <> 10 /\ c1 <> 13) as (N1 & N2) by (unfold tabsp in Tb; apply orb_true_iff in Tb; rewrite !Z.eqb_eq in Tb; lia). destruct (T_cons _ _ H) as [H1|(_ & [H1|H1])]; [exact (T_not10 _ _ H1 N1)|injection H1 as H1 _; contradiction|injection H1 as H1 _; contradiction]. }
      eapply vout_ext; [|apply (vout_push [32; 32] w _ pos value value'); [apply IH; [cbn in Ln; lia|exact Tw]|rewrite !zlen_cons; lia|exact V]].
      intros r k K. cbn beta. symmetry. cbn [app field_value]. rewrite !zlen_cons in *. pose proof (zlen_nonneg w). destruct (Z.ltb_spec (zlen w + 1 + 1 + k) 1); [lia|]. destruct (Z.ltb_spec (zlen w + 1 + 1 + k) 2); [lia|]. rewrite E10 at 1. change (10 =? 10) with true. cbn iota. rewrite Tb. change (zlen [32; 32]) with 2. fold value'. change (zlen []) with 0. f_equal. f_equal; lia.
    + exists [], [], (c1 :: w), final. split; [exact (T_Tail _ _ H)|]. split; [rewrite !zlen_cons; lia|]. split; [|change (zlen []) with 0; destruct Vf; [left; assumption|right; lia]].
      intros r k K. cbn [app field_value]. rewrite !zlen_cons in *. pose proof (zlen_nonneg w). destruct (Z.ltb_spec (zlen w + 1 + 1 + k) 1); [lia|]. destruct (Z.ltb_spec (zlen w + 1 + 1 + k) 2); [lia|]. rewrite E10 at 1. change (10 =? 10) with true. cbn iota. rewrite Tb. change (zlen []) with 0. fold value'. fold final. f_equal; lia.
  - pose proof (T_not10 _ _ H N10) as Hw. destruct (Z.eqb_spec c 13) as [E13|N13].
    + destruct w as [|c1 w]; [destruct (T_nil Hw)|]. cbn [length] in Ln. destruct (Z.eqb_spec c1 10) as [E1|N1].
      * destruct w as [|c2 w]; [destruct (T_one _ Hw)|]. cbn [length] in Ln. destruct (tabsp c2) eqn:Tb.
        -- assert (T w) as Tw. { assert (c2 <> 10 /\ c2 <> 13) as (M1 & M2) by (unfold tabsp in Tb; apply orb_true_iff in Tb; rewrite !Z.eqb_eq in Tb; lia). destruct (T_cons _ _ Hw) as [H1|(_ & [H1|H1])]; [exact (T_not10 _ _ H1 M1)|injection H1 as H1 _; contradiction|injection H1 as H1 _; contradiction]. }
           eapply vout_ext; [|apply (vout_push [32; 32; 32] w _ pos value value'); [apply IH; [lia|exact Tw]|rewrite !zlen_cons; lia|exact V]].
           intros r k K. cbn beta. symmetry. cbn [app field_value]. rewrite !zlen_cons in *. pose proof (zlen_nonneg w). destruct (Z.ltb_spec (zlen w + 1 + 1 + 1 + k) 1); [lia|]. destruct (Z.ltb_spec (zlen w + 1 + 1 + 1 + k) 2); [lia|]. destruct (Z.ltb_spec (zlen w + 1 + 1 + 1 + k) 3); [lia|]. rewrite E1. change (10 =? 10) with true. rewrite (proj2 (Z.eqb_neq c 10) N10), (proj2 (Z.eqb_eq c 13) E13). rewrite Tb. change (zlen [32; 32; 32]) with 3. fold value'. change (zlen []) with 0. f_equal. f_equal; lia.
        -- exists [], [10], (c2 :: w), final. split; [exact (T_Tail _ _ Hw)|]. split; [rewrite !zlen_cons; lia|]. split; [|change (zlen []) with 0; destruct Vf; [left; assumption|right; lia]].
           intros r k K. cbn [app field_value]. rewrite !zlen_cons in *. pose proof (zlen_nonneg w). destruct (Z.ltb_spec (zlen w + 1 + 1 + 1 + k) 1); [lia|]. destruct (Z.ltb_spec (zlen w + 1 + 1 + 1 + k) 2); [lia|]. destruct (Z.ltb_spec (zlen w + 1 + 1 + 1 + k) 3); [lia|]. rewrite E1. change (10 =? 10) with true. rewrite (proj2 (Z.eqb_neq c 10) N10), (proj2 (Z.eqb_eq c 13) E13). rewrite Tb. change (zlen []) with 0. fold value'. fold final. f_equal; lia.
      * eapply vout_ext; [|apply (vout_push [13] (c1 :: w) _ pos value value'); [apply IH; [cbn; lia|exact Hw]|rewrite !zlen_cons; lia|exact V]].
        intros r k K. cbn beta. symmetry. change ((c :: c1 :: w) ++ r) with (c :: c1 :: w ++ r). rewrite fv_13 by (try assumption; rewrite !zlen_cons in *; pose proof (zlen_nonneg w); lia). change (zlen [13]) with 1. fold value'. change (c1 :: w ++ r) with ((c1 :: w) ++ r). f_equal. f_equal. rewrite !zlen_cons. lia.
    + eapply vout_ext; [|apply (vout_push [c] w _ pos value value'); [apply IH; [lia|exact Hw]|rewrite !zlen_cons; lia|exact V]].
      intros r k K. cbn beta. symmetry. cbn [app field_value]. rewrite !zlen_cons in *. destruct (Z.ltb_spec (zlen w + 1 + k) 1); [lia|]. rewrite (proj2 (Z.eqb_neq c 10) N10), (proj2 (Z.eqb_neq c 13) N13). change (zlen [c]) with 1. fold value'. change (zlen []) with 0. f_equal. f_equal; lia.
Qed.
Lemma upto0_split a X : upto0 (a ++ 0 :: X) = Some (text (a ++ [0])).
Proof. induction a as [|c a IH]; [reflexivity|]. cbn [app upto0 text]. destruct (c =? 0); [reflexivity|]. rewrite IH. reflexivity. Qed.
Lemma cstr_closed pre a X p i : p = zlen pre + i -> 0 <= i <= zlen a -> cstr_at (pre ++ a ++ 0 :: X) p = Some (text (skipn (Z.to_nat i) a ++ [0])).
Proof.
  intros -> Hi. unfold cstr_at. pose proof (zlen_nonneg pre). pose proof (zlen_nonneg X). rewrite !zlen_app, zlen_cons. destruct (Z.leb_spec 0 (zlen pre + i)); [|lia]. destruct (Z.leb_spec (zlen pre + i) (zlen pre + (zlen a + (zlen X + 1)))); [|lia]. cbn [andb].
  rewrite skipn_app. rewrite skipn_all2 by (unfold zlen in *; lia). cbn [app]. replace (Z.to_nat (zlen pre + i) - length pre)%nat with (Z.to_nat i) by (unfold zlen in *; lia). rewrite skipn_app. replace (Z.to_nat i - length a)%nat with 0%nat by (unfold zlen in *; lia). cbn [skipn]. apply upto0_split.
Qed.
Lemma fields_indep n : forall w, Tail w -> forall pos, (forall r k, 0 <= k -> fields n (w ++ r) pos (zlen w + k) = FErr) \/
  exists a w' l fs, (forall r k, 0 <= k -> fields n (w ++ r) pos (zlen w + k) = FOk a (w' ++ r) l) /\
    forall pre X, zlen pre = pos -> strings (pre ++ a ++ X) l = Some fs.
Proof.
  induction n as [|n IH]; intros w Tw pos.
  - destruct w as [|c w]; [destruct Tw as [Tw|[Tw|Tw]]; [destruct (T_nil Tw)|discriminate|discriminate]|]. destruct (Z.eqb_spec c 10) as [E10|N10].
    + right. exists [], (c :: w), [], []. split; [|reflexivity]. intros r k K. cbn [app fields]. rewrite (proj2 (Z.eqb_eq c 10) E10). reflexivity.
    + destruct (Z.eqb_spec c 13) as [E13|N13].
      * destruct w as [|c1 w]; [destruct Tw as [Tw|[Tw|Tw]]; [destruct (T_one _ Tw)|discriminate|injection Tw as Tw; lia]|]. pose proof (zlen_nonneg w). destruct (Z.eqb_spec c1 10) as [E1|N1].
        -- right. exists [], (c :: c1 :: w), [], []. split; [|reflexivity]. intros r k K. cbn [app fields]. rewrite (proj2 (Z.eqb_neq c 10) N10), (proj2 (Z.eqb_eq c 13) E13), (proj2 (Z.eqb_eq c1 10) E1). destruct (Z.ltb_spec (zlen (c :: c1 :: w) + k) 2); [rewrite !zlen_cons in *; lia|reflexivity].
        -- left. intros r k K. cbn [app fields]. rewrite (proj2 (Z.eqb_neq c 10) N10), (proj2 (Z.eqb_eq c 13) E13), (proj2 (Z.eqb_neq c1 10) N1). destruct (_ <? 2); reflexivity.
      * left. intros r k K. cbn [app fields]. rewrite (proj2 (Z.eqb_neq c 10) N10), (proj2 (Z.eqb_neq c 13) N13). reflexivity.
  - destruct w as [|c w]; [destruct Tw as [Tw|[Tw|Tw]]; [destruct (T_nil Tw)|discriminate|discriminate]|].
    set (field := fun r k => match field_name ((c :: w) ++ r) pos (zlen (c :: w) + k) with
      | NFault => FFault
      | NErr => FErr
      | NOk w1 rest1 pos1 len1 =>
        match field_value rest1 pos1 len1 None with
        | VFault => FFault
        | VErr => FErr
        | VOk w2 rest2 pos2 len2 v =>
          match fields n rest2 pos2 len2 with
          | FOk w rest' l => FOk (w1 ++ w2 ++ w) rest' ((pos, v) :: l)
          | r => r
          end
        end
      end).
    assert (T (c :: w) -> (forall r k, 0 <= k -> field r k = FErr) \/
      exists a w' l fs, (forall r k, 0 <= k -> field r k = FOk a (w' ++ r) l) /\ forall pre X, zlen pre = pos -> strings (pre ++ a ++ X) l = Some fs) as Hf.
    { intros H. unfold field. destruct (name_indep _ H pos) as [A|(a & w1 & T1 & L1 & A)]; [left; intros r k K; rewrite (A r k K); reflexivity|].
      destruct (value_indep (length w1) w1 (le_n _) T1 (pos + zlen a + 1) None) as (b & b' & w2 & v & T2 & L2 & B & [Bv|Bv]); [discriminate|].
      destruct (IH w2 T2 (pos + zlen a + 1 + zlen (b ++ 0 :: b'))) as [C|(d & w3 & l & fs & C & D)].
      - left. intros r k K. rewrite (A r k K), (B r k K), (C r k K). reflexivity.
      - right. exists ((a ++ [0]) ++ (b ++ 0 :: b') ++ d), w3, ((pos, v) :: l), ((text (skipn (Z.to_nat 0) a ++ [0]), text (skipn (Z.to_nat (v - (pos + zlen a + 1))) b ++ [0])) :: fs). split.
        + intros r k K. rewrite (A r k K), (B r k K), (C r k K). reflexivity.
        + intros pre X Pp. pose proof (zlen_nonneg a). cbn [strings].
          replace (pre ++ ((a ++ [0]) ++ (b ++ 0 :: b') ++ d) ++ X) with (pre ++ a ++ 0 :: ((b ++ 0 :: b') ++ d ++ X)) by (repeat (rewrite <- app_assoc; cbn [app]); reflexivity). rewrite (cstr_closed pre a _ pos 0) by lia.
          replace (pre ++ a ++ 0 :: (b ++ 0 :: b') ++ d ++ X) with ((pre ++ a ++ [0]) ++ b ++ 0 :: (b' ++ d ++ X)) by (repeat (rewrite <- app_assoc; cbn [app]); reflexivity). rewrite (cstr_closed (pre ++ a ++ [0]) b _ v (v - (pos + zlen a + 1))) by (rewrite ?zlen_app; change (zlen [0]) with 1; lia).
          replace ((pre ++ a ++ [0]) ++ b ++ 0 :: b' ++ d ++ X) with ((pre ++ a ++ [0] ++ b ++ 0 :: b') ++ d ++ X) by (repeat (rewrite <- app_assoc; cbn [app]); reflexivity). rewrite D; [reflexivity|]. rewrite !zlen_app. change (zlen [0]) with 1. lia. }
    destruct (Z.eqb_spec c 10) as [E10|N10].
    + right. exists [], (c :: w), [], []. split; [|reflexivity]. intros r k K. cbn [app fields]. rewrite (proj2 (Z.eqb_eq c 10) E10). reflexivity.
    + destruct (Z.eqb_spec c 13) as [E13|N13].
      * destruct w as [|c1 w]; [destruct Tw as [Tw|[Tw|Tw]]; [destruct (T_one _ Tw)|discriminate|injection Tw as Tw; lia]|]. pose proof (zlen_nonneg w). destruct (Z.eqb_spec c1 10) as [E1|N1].
        -- right. exists [], (c :: c1 :: w), [], []. split; [|reflexivity]. intros r k K. cbn [app fields]. rewrite (proj2 (Z.eqb_neq c 10) N10), (proj2 (Z.eqb_eq c 13) E13), (proj2 (Z.eqb_eq c1 10) E1). destruct (Z.ltb_spec (zlen (c :: c1 :: w) + k) 2); [rewrite !zlen_cons in *; lia|reflexivity].
        -- assert (T (c :: c1 :: w)) as Tt by (destruct Tw as [Tw|[Tw|Tw]]; [exact Tw|injection Tw as _ Tw _; contradiction|discriminate Tw]).
           assert (forall r k, 0 <= k -> fields (S n) ((c :: c1 :: w) ++ r) pos (zlen (c :: c1 :: w) + k) = field r k) as Ef.
           { intros r k K. unfold field. cbn [app fields]. rewrite (proj2 (Z.eqb_neq c 10) N10), (proj2 (Z.eqb_eq c 13) E13), (proj2 (Z.eqb_neq c1 10) N1). destruct (Z.ltb_spec (zlen (c :: c1 :: w) + k) 2); [rewrite !zlen_cons in *; lia|reflexivity]. }
           destruct (Hf Tt) as [A|(a & w' & l & fs & A & B)]; [left; intros r k K; rewrite (Ef r k K); apply A, K|right; exists a, w', l, fs; split; [intros r k K; rewrite (Ef r k K); apply A, K|exact B]].
      * assert (T (c :: w)) as Tt by (destruct Tw as [Tw|[Tw|Tw]]; [exact Tw|injection Tw as Tw _; contradiction|injection Tw as Tw _; contradiction]).
        assert (forall r k, 0 <= k -> fields (S n) ((c :: w) ++ r) pos (zlen (c :: w) + k) = field r k) as Ef.
        { intros r k K. unfold field. cbn [app fields]. rewrite (proj2 (Z.eqb_neq c 10) N10), (proj2 (Z.eqb_neq c 13) N13). reflexivity. }
        destruct (Hf Tt) as [A|(a & w' & l & fs & A & B)]; [left; intros r k K; rewrite (Ef r k K); apply A, K|right; exists a, w', l, fs; split; [intros r k K; rewrite (Ef r k K); apply A, K|exact B]].
Qed.
(** the strings of the request do not depend on what follows the header *)
Lemma parse_indep w : T w -> (forall r, parse_http_header (w ++ r) = HErr) \/
  exists method u v fs, is_prefix method w = true /\
  forall r, exists mem pu pv l, parse_http_header (w ++ r) = HOk mem pu pv l /\ cstr_at mem 0 = Some method /\ cstr_at mem pu = Some u /\ cstr_at mem pv = Some v /\ strings mem l = Some fs.
Proof.
  intros H. destruct (req_indep w H 0 None None) as (a & w' & u & v & Tl & A & U & V & M).
  assert (forall r, req_line ((w ++ r) ++ [0]) 0 (zlen (w ++ r)) None None = LOk (a ++ [0]) (w' ++ r ++ [0]) (0 + zlen a + 1) (zlen w' + zlen r) u v) as A'.
  { intros r. rewrite <- app_assoc, zlen_app. apply A, zlen_nonneg. }
  destruct U as [-> |(iu & -> & Iu)]; [left; intros r; unfold parse_http_header; rewrite A'; reflexivity|].
  destruct V as [-> |(iv & -> & Iv)]; [left; intros r; unfold parse_http_header; rewrite A'; reflexivity|].
  destruct (fields_indep MAX_HEADERS w' Tl (0 + zlen a + 1)) as [B|(d & w3 & l & fs & B & C)].
  - left. intros r. unfold parse_http_header. rewrite A', (B (r ++ [0]) (zlen r) (zlen_nonneg r)). reflexivity.
  - right. exists (text (a ++ [0])), (text (skipn (Z.to_nat iu) a ++ [0])), (text (skipn (Z.to_nat iv) a ++ [0])), fs. split.
    + assert (text (a ++ [0]) = text a) as -> by (clear; induction a as [|c a IH]; [reflexivity|]; cbn [app text]; destruct (c =? 0); [reflexivity|now rewrite IH]). exact M.
    + intros r. exists ((a ++ [0]) ++ d ++ w3 ++ r ++ [0]), (0 + iu), (0 + iv), l. split.
      * unfold parse_http_header. rewrite A', (B (r ++ [0]) (zlen r) (zlen_nonneg r)). reflexivity.
      * replace ((a ++ [0]) ++ d ++ w3 ++ r ++ [0]) with ([] ++ a ++ 0 :: (d ++ w3 ++ r ++ [0])) by (cbn [app]; rewrite <- app_assoc; reflexivity).
        pose proof (zlen_nonneg a). split; [apply (cstr_closed [] a _ 0 0); [reflexivity|lia]|]. split; [apply cstr_closed; [reflexivity|lia]|]. split; [apply cstr_closed; [reflexivity|lia]|].
        replace ([] ++ a ++ 0 :: d ++ w3 ++ r ++ [0]) with ((a ++ [0]) ++ d ++ (w3 ++ r ++ [0])) by (cbn [app]; rewrite <- app_assoc; reflexivity). apply C. rewrite zlen_app. change (zlen [0]) with 1. lia.
Qed.
Lemma text_no_nul s r : no_nul s -> text (s ++ r) = s ++ text r.
Proof. induction s as [|c s IH]; intros H; [reflexivity|]. apply Forall_cons_iff in H. destruct H as (H1 & H2). cbn [app text]. destruct (Z.eqb_spec c 0); [contradiction|]. now rewrite IH. Qed.
Lemma strstr_found s p a b : s = a ++ p ++ b -> forall i, exists j, strstr s p i = Some j.
Proof. intros E i. destruct (strstr s p i) as [j|] eqn:F; [eauto|]. destruct (strstr_none _ _ _ F a b E). Qed.
Lemma header_end_found t r : Ends t -> exists i, header_end (t ++ r) = Some i.
Proof.
  intros (p & [-> | ->]); unfold header_end.
  - destruct (strstr_found ((p ++ [13; 10; 13; 10]) ++ r) END1 p r) with (i := 0) as (j & ->); [rewrite <- app_assoc; reflexivity|eauto].
  - destruct (strstr _ END1 0); [eauto|]. destruct (strstr_found ((p ++ [10; 10]) ++ r) END2 p r) with (i := 0) as (j & ->); [rewrite <- app_assoc; reflexivity|eauto].
Qed.
Lemma header_end_none s : (forall a b, s = a ++ b -> ~ Ends a) -> header_end s = None.
Proof.
  intros H. unfold header_end. destruct (strstr s END1 0) as [j|] eqn:E; [apply strstr_some in E; destruct E as (a & b & -> & _); exfalso; apply (H (a ++ END1) b); [now rewrite <- app_assoc|exists a; left; reflexivity]|].
  destruct (strstr s END2 0) as [j|] eqn:E2; [apply strstr_some in E2; destruct E2 as (a & b & -> & _); exfalso; apply (H (a ++ END2) b); [now rewrite <- app_assoc|exists a; right; reflexivity]|]. reflexivity.
Qed.
Lemma receive_indep sites t r : Ends t -> no_nul t -> is_prefix (zs "POST") t = false -> receive sites (t ++ r) = receive sites t /\ forall i, receive sites t <> Wait i.
Proof.
  intros E N P. assert (forall r, exists i, header_end (text ((t ++ r) ++ [0])) = Some i) as He by (intros r0; rewrite <- app_assoc, text_no_nul by exact N; apply header_end_found, E).
  assert (exists o, (forall i, o <> Wait i) /\ forall r, receive sites (t ++ r) = o) as (o & O1 & O2).
  { destruct (parse_indep t (Ends_T _ E)) as [A|(method & u & v & fs & M & A)].
    - exists (Done (Error 400)). split; [discriminate|]. intros r0. unfold receive. destruct (He r0) as (i & ->). rewrite A. reflexivity.
    - assert (str_eqb method (zs "POST") = false) as NP by (destruct (str_eqb method (zs "POST")) eqn:Q; [apply str_eqb_eq in Q; subst method; congruence|reflexivity]).
      assert (no_nul u) as Nu by (destruct (A []) as (mem & pu & pv & l & _ & _ & A3 & _); exact (cstr_no_nul _ _ _ A3)).
      exists (if negb (str_eqb v (zs "HTTP/1.0")) && negb (str_eqb v (zs "HTTP/1.1")) then Done (Error 400) else if MAX_URI <=? zlen u then Done (Error 400) else process sites [] ([] ++ [0]) 0 method u fs). split.
      + intros i. destruct (_ && _); [discriminate|]. destruct (Z.leb_spec MAX_URI (zlen u)) as [|L]; [discriminate|]. apply process_ok; [exact Nu|unfold MAX_URI in L; lia|change (zlen []) with 0; lia|exact NP].
      + intros r0. unfold receive. destruct (He r0) as (i & ->). destruct (A r0) as (mem & pu & pv & l & -> & -> & -> & -> & ->). destruct (_ && _); [reflexivity|]. destruct (MAX_URI <=? zlen u); [reflexivity|]. unfold process. rewrite NP. reflexivity. }
  split; [rewrite (O2 r); rewrite <- (O2 []); now rewrite app_nil_r|]. intros i. specialize (O2 []). rewrite app_nil_r in O2. rewrite O2. apply O1.
Qed.
Lemma session_ok sites t rest r : Header t -> no_nul t -> is_prefix (zs "POST") t = false -> receive sites t = Done r -> zlen (t ++ rest) <= 65536 ->
  forall pieces b, b ++ concat pieces = t ++ rest -> zlen b < zlen t -> session sites b pieces = Replied r.
Proof.
  intros (E & F) N P R L. induction pieces as [|p ps IH]; intros b Eb Lb.
  - cbn [concat] in Eb. rewrite app_nil_r in Eb. apply (f_equal zlen) in Eb. rewrite zlen_app in Eb. pose proof (zlen_nonneg rest). lia.
  - cbn [session concat] in *. rewrite app_assoc in Eb. assert (zlen (b ++ p) <= 65536) as L1 by (rewrite <- Eb, zlen_app in L; pose proof (zlen_nonneg (concat ps)); lia). destruct (Z.ltb_spec 65536 (zlen (b ++ p))); [lia|].
    destruct (Z.lt_ge_cases (zlen (b ++ p)) (zlen t)) as [C|C].
    + assert (exists y, t = (b ++ p) ++ y /\ y <> []) as (y & Ey & Ny).
      { destruct (zsplit t (zlen (b ++ p))) as (x & y & E1 & E2 & E3); [pose proof (zlen_nonneg (b ++ p)); lia|]. rewrite E1 in Eb. rewrite <- (app_assoc x) in Eb. apply app_inj_len in Eb; [|lia]. destruct Eb as (Eb1 & _). rewrite Eb1. exists y. split; [exact E1|]. intros ->. change (zlen []) with 0 in E3. lia. }
      assert (receive sites (b ++ p) = Wait (b ++ p)) as ->.
      { unfold receive. rewrite text_no_nul by (rewrite Ey in N; apply Forall_app in N; tauto). change (text [0]) with (@nil Z). rewrite app_nil_r. rewrite header_end_none; [reflexivity|]. intros a' b' E'. apply (F a' (b' ++ y)); [rewrite Ey, E', <- app_assoc; reflexivity|]. destruct b'; [exact Ny|discriminate]. }
      apply IH; [exact Eb|exact C].
    + assert (exists y, b ++ p = t ++ y) as (y & Ey). { destruct (zsplit (b ++ p) (zlen t)) as (x & y & E1 & E2 & E3); [pose proof (zlen_nonneg t); lia|]. rewrite E1, <- (app_assoc x) in Eb. apply app_inj_len in Eb; [|lia]. destruct Eb as (-> & _). eauto. }
      rewrite Ey. destruct (receive_indep sites t y E N P) as (-> & _). rewrite R. reflexivity.
Qed.
