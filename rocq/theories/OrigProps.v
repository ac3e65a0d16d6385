(** C121 and C122: the originator addresses of the router. *)
From Verif Require Import Base TimerModel FloodModel FloodProps OrigModel.

Section P.
Context (acl linklocal : addr -> bool).

(** ** What is expected *)
(** [a] is a usable address of family [f], on an interface of the list *)
Definition offers (f : fam) (ifs : list iface) (a : addr) (loop : bool) : Prop :=
  isfam f a = true /\ acl a = true /\ exists i, In i ifs /\ In a (i_addrs i) /\ i_loop i = loop.
(** routable addresses first, among them (and among the others) those of a
    loopback interface *)
Definition grade (a : addr) (loop : bool) : Z :=
  (if linklocal a then 0 else 2) + (if loop then 1 else 0).
Definition best_one (f : fam) (ifs : list iface) (a : addr) (loop : bool) : Prop :=
  offers f ifs a loop /\ forall b l, offers f ifs b l -> grade b l <= grade a loop.

(** ** The choice *)
Lemma aeqb_eq x y : aeqb x y = true <-> x = y.
Proof. destruct x, y; cbn; rewrite ?Z.eqb_eq; split; congruence. Qed.
Lemma aeqb_refl x : aeqb x x = true. Proof. now apply aeqb_eq. Qed.
Lemma is_orig_eq o a : is_orig o a = true <-> o = Some a.
Proof. destruct o as [b|]; cbn; [rewrite aeqb_eq|]; split; congruence. Qed.

Definition flat (ifs : list iface) : list (bool * addr) := flat_map (fun i => map (fun a => (i_loop i, a)) (i_addrs i)) ifs.
Definition visit1 f cur (acc : Z * Z * option addr) (p : bool * addr) := visit acl linklocal f cur (fst p) acc (snd p).
Lemma scan_flat f cur ifs : scan acl linklocal f cur ifs = fold_left (visit1 f cur) (flat ifs) (0, 0, None).
Proof.
  unfold scan. generalize (0, 0, @None addr) as acc. induction ifs as [|i ifs IH]; intros acc; cbn [fold_left flat flat_map]; [reflexivity|].
  rewrite fold_left_app. rewrite IH. f_equal. clear. revert acc. induction (i_addrs i) as [|a l IH]; intros acc; cbn [fold_left map]; [reflexivity|]. apply IH.
Qed.
Definition use (f : fam) (l : list (bool * addr)) (a : addr) (lp : bool) : Prop := isfam f a = true /\ acl a = true /\ In (lp, a) l.
Lemma use_flat f ifs a lp : use f (flat ifs) a lp <-> offers f ifs a lp.
Proof.
  unfold use, offers, flat. rewrite in_flat_map. split.
  - intros (A & B & i & I1 & I2). apply in_map_iff in I2 as (x & E & I2). injection E as <- <-. split; [exact A|]. split; [exact B|]. exists i. auto.
  - intros (A & B & i & I1 & I2 & <-). split; [exact A|]. split; [exact B|]. exists i. split; [exact I1|]. apply in_map_iff. exists a. auto.
Qed.
Definition pr (a : addr) (lp : bool) : Z := 4 + 2 * grade a lp.
Lemma pr_priority (f : fam) (a : addr) (lp : bool) : isfam f a = true -> acl a = true -> (if lp then addr_priority acl linklocal a * 4 + 2 else addr_priority acl linklocal a * 4) = pr a lp /\ addr_priority acl linklocal a * 4 <> 0.
Proof.
  intros F A. unfold pr, grade, addr_priority. rewrite A. cbn [negb]. destruct a; [..|destruct f; discriminate]; destruct (linklocal _), lp; lia.
Qed.

Definition inv (f : fam) (cur : option addr) (l : list (bool * addr)) (acc : Z * Z * option addr) : Prop :=
  let '(oldp, newp, best) := acc in
  ((oldp = 0 /\ forall c lp, cur = Some c -> ~ use f l c lp) \/ (exists c lp, cur = Some c /\ use f l c lp /\ oldp = pr c lp + 1)) /\
  ((newp = 0 /\ best = None) \/ (exists a lp, best = Some a /\ use f l a lp /\ newp = pr a lp)) /\
  (forall a lp, use f l a lp -> pr a lp <= newp \/ exists c lc, cur = Some c /\ use f l c lc /\ pr a lp <= pr c lc).
Lemma use_app f l x a lp : use f l a lp -> use f (l ++ [x]) a lp.
Proof. intros (A & B & C). split; [exact A|]. split; [exact B|]. apply in_or_app. auto. Qed.
Lemma use_last f l x a lp : use f (l ++ [x]) a lp -> use f l a lp \/ x = (lp, a).
Proof. intros (A & B & C). apply in_app_or in C as [C|[C|[]]]; [left; repeat split; auto|auto]. Qed.
Lemma inv_skip (f : fam) (cur : option addr) l acc x : inv f cur l acc -> (isfam f (snd x) = false \/ acl (snd x) = false) -> inv f cur (l ++ [x]) acc.
Proof.
  destruct acc as [[oldp newp] best]. intros (A & B & C) N.
  assert (forall a lp, use f (l ++ [x]) a lp -> use f l a lp) as U.
  { intros a lp H. destruct (use_last _ _ _ _ _ H) as [X|X]; [exact X|]. subst x. cbn in N. destruct H as (H1 & H2 & _). destruct N; congruence. }
  split; [|split].
  - destruct A as [[A1 A2]|(c & lp & A1 & A2 & A3)]; [left|right].
    + split; [exact A1|]. intros c lp E H. exact (A2 c lp E (U _ _ H)).
    + exists c, lp. auto using use_app.
  - destruct B as [B|(a & lp & B1 & B2 & B3)]; [left; exact B|right]. exists a, lp. auto using use_app.
  - intros a lp H. destruct (C a lp (U _ _ H)) as [X|(c & lc & X1 & X2 & X3)]; [left; exact X|right]. exists c, lc. auto using use_app.
Qed.
Lemma inv_step f cur l acc x : inv f cur l acc -> inv f cur (l ++ [x]) (visit1 f cur acc x).
Proof.
  intros IV. destruct x as [lp a]. unfold visit1, visit. cbn [fst snd]. destruct acc as [[oldp newp] best].
  destruct (isfam f a) eqn:F; [|apply inv_skip; cbn [snd]; auto].
  destruct (acl a) eqn:AC.
  2:{ assert (addr_priority acl linklocal a = 0) as -> by (unfold addr_priority; now rewrite AC). cbn [Z.mul Z.eqb]. apply inv_skip; cbn [snd]; auto. }
  destruct (pr_priority f a lp F AC) as [EP NZ]. rewrite (proj2 (Z.eqb_neq _ _) NZ), EP. clear EP NZ. cbv zeta.
  destruct IV as (A & B & C).
  assert (use f (l ++ [(lp, a)]) a lp) as UA by (split; [exact F|]; split; [exact AC|]; apply in_or_app; right; left; reflexivity).
  set (oldp' := if is_orig cur a then pr a lp + 1 else oldp).
  assert (0 < pr a lp) as PP by (unfold pr, grade; destruct (linklocal a), lp; lia).
  assert ((oldp' = 0 /\ forall c lc, cur = Some c -> ~ use f (l ++ [(lp, a)]) c lc) \/ (exists c lc, cur = Some c /\ use f (l ++ [(lp, a)]) c lc /\ oldp' = pr c lc + 1)) as A'.
  { unfold oldp'. destruct (is_orig cur a) eqn:O; [right; apply is_orig_eq in O; exists a, lp; auto|].
    destruct A as [[A1 A2]|(c & lc & A1 & A2 & A3)]; [left|right; exists c, lc; auto using use_app].
    split; [exact A1|]. intros c lc E H. destruct (use_last _ _ _ _ _ H) as [X|X]; [exact (A2 c lc E X)|]. injection X as <- <-.
    rewrite (proj2 (is_orig_eq cur a) E) in O. discriminate. }
  clearbody oldp'. clear A.
  assert (forall b lb, use f l b lb -> pr b lb <= newp \/ exists c lc, cur = Some c /\ use f (l ++ [(lp, a)]) c lc /\ pr b lb <= pr c lc) as C'.
  { intros b lb H. destruct (C b lb H) as [X|(c & lc & X1 & X2 & X3)]; [left; exact X|right]. exists c, lc. auto using use_app. }
  destruct (Z.gtb_spec (pr a lp) oldp') as [G1|G1]; cbn [andb].
  - destruct (Z.gtb_spec (pr a lp) newp) as [G2|G2].
    + split; [exact A'|]. split; [right; exists a, lp; auto|].
      intros b lb H. destruct (use_last _ _ _ _ _ H) as [X|X]; [|injection X as <- <-; left; lia].
      destruct (C' b lb X) as [Y|Y]; [left; lia|right; exact Y].
    + split; [exact A'|]. split; [destruct B as [B|(b & lb & B1 & B2 & B3)]; [left; exact B|right; exists b, lb; auto using use_app]|].
      intros b lb H. destruct (use_last _ _ _ _ _ H) as [X|X]; [exact (C' b lb X)|]. injection X as <- <-. left. lia.
  - split; [exact A'|]. split; [destruct B as [B|(b & lb & B1 & B2 & B3)]; [left; exact B|right; exists b, lb; auto using use_app]|].
    intros b lb H. destruct (use_last _ _ _ _ _ H) as [X|X]; [exact (C' b lb X)|]. injection X as <- <-.
    destruct A' as [[E _]|(c & lc & A1 & A2 & A3)]; [lia|]. right. exists c, lc. split; [exact A1|]. split; [exact A2|]. unfold pr in *. lia.
Qed.
Lemma inv_scan f cur ifs : inv f cur (flat ifs) (scan acl linklocal f cur ifs).
Proof.
  rewrite scan_flat. assert (forall l l0 acc, inv f cur l0 acc -> inv f cur (l0 ++ l) (fold_left (visit1 f cur) l acc)) as G.
  { induction l as [|x l IH]; intros l0 acc H; cbn [fold_left]; [now rewrite app_nil_r|].
    replace (l0 ++ x :: l) with ((l0 ++ [x]) ++ l) by now rewrite <- app_assoc. apply IH, inv_step, H. }
  apply (G (flat ifs) []). split; [left; split; [reflexivity|intros c lp _ (_ & _ & [])]|]. split; [left; auto|]. intros a lp (_ & _ & []).
Qed.

Lemma set_get f a tcv s : isfam f a = true -> orig_get f (orig_set a tcv s) = Some a.
Proof. destruct f, a; intros H; try discriminate; reflexivity. Qed.
Lemma set_other f g a tcv s : isfam g a = true -> f <> g -> orig_get f (orig_set a tcv s) = orig_get f s.
Proof. destruct f, g, a; intros H N; try discriminate; try contradiction; reflexivity. Qed.
Lemma scan_fam f cur ifs oldp newp b : scan acl linklocal f cur ifs = (oldp, newp, Some b) -> isfam f b = true.
Proof.
  intros E. pose proof (inv_scan f cur ifs) as IV. rewrite E in IV. destruct IV as (_ & [[_ X]|(a & lp & X & (U & _) & _)] & _); [discriminate|]. congruence.
Qed.
Lemma update_other f g ifs tcv s : f <> g -> orig_get f (update_originator acl linklocal g ifs tcv s) = orig_get f s.
Proof.
  intros N. unfold update_originator. destruct (scan acl linklocal g (orig_get g s) ifs) as [[oldp newp] [b|]] eqn:E; destruct (newp >? oldp); try reflexivity.
  apply (set_other f g); [exact (scan_fam _ _ _ _ _ _ E)|exact N].
Qed.
Lemma event_get f ifs tcv s : exists s1, orig_get f s1 = orig_get f s /\
  orig_get f (if_event acl linklocal ifs tcv s) = orig_get f (update_originator acl linklocal f ifs tcv s1).
Proof.
  unfold if_event. destruct f.
  - exists s. split; [reflexivity|]. apply update_other. discriminate.
  - exists (update_originator acl linklocal V4 ifs tcv s). split; [apply update_other; discriminate|reflexivity].
Qed.

Lemma pr_grade a l b m : pr a l <= pr b m + 1 -> grade a l <= grade b m.
Proof. unfold pr. lia. Qed.

Lemma update_best f ifs tcv s a0 l0 : offers f ifs a0 l0 ->
  exists o lp, orig_get f (update_originator acl linklocal f ifs tcv s) = Some o /\ best_one f ifs o lp.
Proof.
  intros OF. unfold update_originator. pose proof (inv_scan f (orig_get f s) ifs) as IV.
  destruct (scan acl linklocal f (orig_get f s) ifs) as [[oldp newp] best] eqn:ES. destruct IV as (A & B & C).
  assert (forall a lp, 4 <= pr a lp) as P4 by (intros a lp; unfold pr, grade; destruct (linklocal a), lp; lia).
  destruct (Z.gtb_spec newp oldp) as [G|G].
  - destruct B as [[B1 B2]|(b & lb & -> & UB & EB)].
    { destruct A as [[A _]|(c & lc & _ & _ & A)]; [lia|]. pose proof (P4 c lc). lia. }
    exists b, lb. split; [apply set_get; apply UB|]. split; [now apply use_flat|]. intros x lx OX. apply use_flat in OX.
    apply pr_grade. destruct (C x lx OX) as [X|(c & lc & X1 & X2 & X3)]; [lia|].
    destruct A as [[A1 A2]|(d & ld & A1 & A2 & A3)]; [exfalso; exact (A2 c lc X1 X2)|].
    assert (c = d) as -> by congruence. unfold pr, grade in *. destruct (linklocal d), (linklocal x), (linklocal b), lc, ld, lx, lb; lia.
  - destruct A as [[A1 A2]|(c & lc & A1 & A2 & A3)].
    { assert (newp <= 0) as NP by lia. apply use_flat in OF. destruct (C a0 l0 OF) as [X|(c & lc & X1 & X2 & _)]; [pose proof (P4 a0 l0); lia|].
      exfalso. exact (A2 c lc X1 X2). }
    assert (exists lm, use f (flat ifs) c lm /\ forall lx, use f (flat ifs) c lx -> pr c lx <= pr c lm) as (lm & M1 & M2).
    { destruct (existsb (fun p => fst p && aeqb (snd p) c) (flat ifs)) eqn:EX.
      - apply existsb_exists in EX as ([lx x] & I1 & I2). cbn in I2. apply andb_true_iff in I2 as [-> I2]. apply aeqb_eq in I2 as ->.
        exists true. split; [split; [apply A2|split; [apply A2|exact I1]]|]. intros [|] _; unfold pr, grade; destruct (linklocal c); lia.
      - exists lc. split; [exact A2|]. intros [|] U; [|unfold pr, grade; destruct (linklocal c), lc; lia]. exfalso.
        assert (existsb (fun p => fst p && aeqb (snd p) c) (flat ifs) = true) as X; [|congruence].
        apply existsb_exists. exists (true, c). split; [apply U|]. cbn. apply aeqb_refl. }
    exists c, lm. split; [exact A1|]. split; [now apply use_flat|]. intros x lx OX. apply use_flat in OX. apply pr_grade.
    pose proof (M2 lc A2). destruct (C x lx OX) as [X|(d & ld & X1 & X2 & X3)]; [lia|].
    assert (c = d) as <- by congruence. pose proof (M2 ld X2). lia.
Qed.

(** ** C121: the originator is the best address of the router *)
(** After a change of the interfaces (or the configuration) the originator is the
    best usable address, if there is one. *)
Theorem C121_best_partial f ifs tcv s a l : offers f ifs a l ->
  exists o lp, orig_get f (if_event acl linklocal ifs tcv s) = Some o /\ best_one f ifs o lp.
Proof. intros OF. destruct (event_get f ifs tcv s) as (s1 & _ & ->). exact (update_best f ifs tcv s1 a l OF). Qed.

(** An originator that is as good as any other is kept (if it is so on each of
    the interfaces it is on). *)
Theorem C121_kept_partial f ifs tcv s o lp : orig_get f s = Some o -> offers f ifs o lp ->
  (forall l, offers f ifs o l -> best_one f ifs o l) -> orig_get f (if_event acl linklocal ifs tcv s) = Some o.
Proof.
  intros G OF BO. destruct (event_get f ifs tcv s) as (s1 & G1 & ->). rewrite G in G1. unfold update_originator. rewrite G1.
  pose proof (inv_scan f (Some o) ifs) as IV.
  destruct (scan acl linklocal f (Some o) ifs) as [[oldp newp] best] eqn:ES. destruct IV as (A & B & C).
  destruct (Z.gtb_spec newp oldp) as [X|X]; [|exact G1]. exfalso.
  destruct A as [[A1 A2]|(c & lc & A1 & A2 & A3)]; [apply (A2 o lp eq_refl); now apply use_flat|]. injection A1 as <-.
  destruct B as [[B1 _]|(b & lb & _ & UB & EB)]; [unfold pr, grade in A3; destruct (linklocal o), lc; lia|].
  apply use_flat in A2, UB. destruct (BO lc A2) as [_ M]. specialize (M b lb UB). unfold pr in *. lia.
Qed.
End P.

(** NHDP puts the same originator into its HELLO messages. *)
Lemma update_nhdp acl ll g ifs tcv s : (forall f, nhdp_get f s = orig_get f s) ->
  forall f, nhdp_get f (update_originator acl ll g ifs tcv s) = orig_get f (update_originator acl ll g ifs tcv s).
Proof.
  intros H f. unfold update_originator. destruct (scan acl ll g (orig_get g s) ifs) as [[oldp newp] [b|]]; destruct (newp >? oldp); auto.
  pose proof (H V4). pose proof (H V6). destruct f, b; cbn in *; auto.
Qed.
Theorem C121_nhdp acl ll os f : nhdp_get f (orun acl ll os ost0) = orig_get f (orun acl ll os ost0).
Proof.
  unfold orun. assert (forall s, (forall f, nhdp_get f s = orig_get f s) -> nhdp_get f (fold_left (fun s o => ostep acl ll o s) os s) = orig_get f (fold_left (fun s o => ostep acl ll o s) os s)) as G.
  { induction os as [|o os IH]; intros s H; cbn [fold_left]; [apply H|]. apply IH. destruct o as [ifs tcv|d|a]; cbn [ostep].
    - unfold if_event. apply update_nhdp, update_nhdp, H.
    - intros g. specialize (H g). destruct g; exact H.
    - intros g. specialize (H g). unfold forget. destruct (ofind a (o_old s)) as [t|]; [|exact H]. destruct (t <=? o_now s); [|exact H]. destruct g; exact H. }
  apply G. intros []; reflexivity.
Qed.

(** ** C122: messages of the router itself are recognised *)
Fixpoint odur (os : list oop) : Z := match os with [] => 0 | OWait d :: os' => Z.max 0 d + odur os' | _ :: os' => odur os' end.
Definition tcv_in (lo hi : Z) (o : oop) : Prop := match o with Event _ tcv => lo <= tcv <= hi | _ => True end.
Definition current (s : ost) (a : addr) : Prop := o_v4 s = Some a \/ o_v6 s = Some a.

Lemma ofind_del a b l : ofind a (odel b l) = if aeqb b a then None else ofind a l.
Proof.
  unfold odel. induction l as [|[x t] l IH]; cbn [filter ofind fst]; [destruct (aeqb b a); reflexivity|].
  destruct (aeqb x b) eqn:E1; cbn [negb ofind]; rewrite IH.
  - apply aeqb_eq in E1. subst. destruct (aeqb b a); reflexivity.
  - destruct (aeqb x a) eqn:E2; [|reflexivity]. apply aeqb_eq in E2. subst. destruct (aeqb b a) eqn:E3; [|reflexivity]. apply aeqb_eq in E3. subst. rewrite aeqb_refl in E1. discriminate.
Qed.
Lemma is_local_iff s a : is_local s a = true <-> current s a \/ exists t, ofind a (o_old s) = Some t.
Proof.
  unfold is_local, current. pose proof (is_orig_eq (o_v4 s) a) as E4. pose proof (is_orig_eq (o_v6 s) a) as E6.
  destruct (is_orig (o_v4 s) a); [intuition|]. destruct (is_orig (o_v6 s) a); [intuition|].
  destruct (ofind a (o_old s)) as [t|]; split; intros H; try discriminate; auto; [right; exists t; reflexivity|].
  destruct H as [[H|H]|[t H]]; [apply E4 in H|apply E6 in H|]; discriminate.
Qed.

(** setting an originator: who is current, who is remembered *)
Lemma set_spec acl ll g ifs tcv s : let s' := update_originator acl ll g ifs tcv s in
  o_now s' = o_now s /\
  (s' = s \/ exists b, isfam g b = true /\ orig_get g s' = Some b /\
     (forall a, ofind a (o_old s') = if aeqb b a then None else if is_orig (orig_get g s) a then Some (deadline (o_now s) (u64 (tcv * 2))) else ofind a (o_old s))).
Proof.
  cbv zeta. unfold update_originator. destruct (scan acl ll g (orig_get g s) ifs) as [[oldp newp] [b|]] eqn:E; destruct (newp >? oldp); auto.
  pose proof (scan_fam acl ll g _ _ _ _ _ E) as F.
  split; [destruct b; reflexivity|]. right. exists b. split; [exact F|]. split; [now apply set_get|]. intros a.
  destruct g, b; try discriminate; cbn [orig_set o_old orig_get]; rewrite ofind_del; destruct (aeqb _ a) eqn:EA; try reflexivity.
  - destruct (o_v4 s) as [x|]; [|reflexivity]. cbn [remember ofind is_orig]. rewrite ofind_del. destruct (aeqb x a); reflexivity.
  - destruct (o_v6 s) as [x|]; [|reflexivity]. cbn [remember ofind is_orig]. rewrite ofind_del. destruct (aeqb x a); reflexivity.
Qed.
Lemma current_fam s a : current s a <-> exists f, orig_get f s = Some a.
Proof. unfold current. split; [intros [H|H]; [exists V4|exists V6]; exact H|intros [[] H]; auto]. Qed.

Definition remembered (limit : Z) (s : ost) (a : addr) : Prop := current s a \/ exists t, ofind a (o_old s) = Some t /\ limit <= t.
Lemma update_remembered acl ll g ifs tcv s a limit : remembered limit s a -> limit <= deadline (o_now s) (u64 (tcv * 2)) ->
  remembered limit (update_originator acl ll g ifs tcv s) a.
Proof.
  intros R L. destruct (set_spec acl ll g ifs tcv s) as (_ & [->|(b & F & G & H)]); [exact R|].
  specialize (H a). destruct (aeqb b a) eqn:EB.
  { apply aeqb_eq in EB. subst b. left. apply current_fam. exists g. exact G. }
  destruct R as [R|(t & R1 & R2)].
  - apply current_fam in R as [f R]. destruct (is_orig (orig_get g s) a) eqn:O; [right; eexists; split; [exact H|exact L]|].
    left. apply current_fam. exists f. rewrite update_other; [exact R|]. intros ->. rewrite (proj2 (is_orig_eq _ _) R) in O. discriminate.
  - rewrite R1 in H. destruct (is_orig (orig_get g s) a); right; eexists; (split; [exact H|]); assumption.
Qed.
Lemma odur_nonneg os : 0 <= odur os.
Proof. induction os as [|[] os IH]; cbn [odur]; lia. Qed.
Lemma event_now acl ll ifs tcv s : o_now (if_event acl ll ifs tcv s) = o_now s.
Proof. unfold if_event. rewrite (proj1 (set_spec acl ll V6 ifs tcv _)). apply set_spec. Qed.
Lemma forget_now a s : o_now (forget a s) = o_now s.
Proof. unfold forget. destruct (ofind a (o_old s)) as [t|]; [destruct (t <=? o_now s)|]; reflexivity. Qed.

(** Within twice the validity time of TC messages after it was an originator, an
    address is taken for one of this router. *)
Theorem C122_remembered acl ll os s a v hi : 0 <= v -> 0 <= o_now s -> o_now s + odur os + 2 * hi + 200 < 2 ^ 64 ->
  current s a -> odur os < 2 * v -> Forall (tcv_in v hi) os -> is_local (orun acl ll os s) a = true.
Proof.
  intros V N HI CU D FA. apply is_local_iff.
  assert (exists limit, o_now s + odur os < limit /\ limit <= o_now s + 2 * v /\ remembered limit s a) as (limit & L1 & L2 & R).
  { exists (o_now s + odur os + 1). split; [lia|]. split; [lia|]. left. exact CU. }
  clear CU D. assert (remembered limit (orun acl ll os s) a) as G; [|destruct G as [G|(t & G & _)]; [left; exact G|right; exists t; exact G]].
  revert s N HI L1 L2 R FA. induction os as [|o os IH]; intros s N HI L1 L2 R FA; [exact R|].
  pose proof (Forall_inv FA) as F1. apply Forall_inv_tail in FA. pose proof (odur_nonneg os). unfold orun in *. cbn [fold_left].
  destruct o as [ifs tcv|d|b]; cbn [odur ostep] in *.
  - unfold tcv_in in F1. assert (limit <= deadline (o_now s) (u64 (tcv * 2))) as DL.
    { assert (u64 (tcv * 2) = tcv * 2) as -> by (unfold u64; apply Z.mod_small; lia).
      pose proof (deadline_after (o_now s) (tcv * 2) N ltac:(lia) ltac:(lia)). lia. }
    apply IH; rewrite ?event_now; auto; try lia. unfold if_event. apply update_remembered; [|rewrite (proj1 (set_spec acl ll V4 ifs tcv s)); exact DL].
    apply update_remembered; [exact R|exact DL].
  - apply IH; cbn [o_now]; auto; try lia.
  - apply IH; rewrite ?forget_now; auto; try lia. unfold forget. destruct (ofind b (o_old s)) as [t|] eqn:E; [|exact R].
    destruct (Z.leb_spec t (o_now s)) as [T|T]; [|exact R]. destruct R as [R|(t' & R1 & R2)]; [left; exact R|]. right. exists t'. split; [|exact R2].
    cbn [o_old]. rewrite ofind_del. destruct (aeqb b a) eqn:EB; [|exact R1]. apply aeqb_eq in EB. subst. assert (t = t') by congruence. lia.
Qed.

(** No other address is. *)
Theorem C122_only_originators acl ll os a : is_local (orun acl ll os ost0) a = true ->
  exists os1 os2, os = os1 ++ os2 /\ current (orun acl ll os1 ost0) a.
Proof.
  assert (forall s, is_local (orun acl ll os s) a = true -> is_local s a = true \/ exists os1 os2, os = os1 ++ os2 /\ current (orun acl ll os1 s) a) as G.
  { induction os as [|o os IH]; intros s H; [left; exact H|]. unfold orun in H. cbn [fold_left] in H. destruct (IH _ H) as [X|(os1 & os2 & -> & X)].
    2:{ right. exists (o :: os1), os2. split; [reflexivity|exact X]. }
    assert (forall g ifs tcv s, is_local (update_originator acl ll g ifs tcv s) a = true -> is_local s a = true \/ current (update_originator acl ll g ifs tcv s) a) as U.
    { intros g ifs tcv s0 L. apply is_local_iff in L as [L|[t L]]; [auto|]. destruct (set_spec acl ll g ifs tcv s0) as (_ & [E|(b & F & G & E)]); [left; apply is_local_iff; right; exists t; now rewrite <- E|].
      rewrite E in L. destruct (aeqb b a); [discriminate|]. destruct (is_orig (orig_get g s0) a) eqn:O.
      - left. apply is_local_iff. left. apply current_fam. exists g. now apply is_orig_eq.
      - left. apply is_local_iff. right. exists t. exact L. }
    destruct o as [ifs tcv|d|b]; cbn [ostep] in X.
    - unfold if_event in X. destruct (U _ _ _ _ X) as [Y|Y]; [|right; exists [Event ifs tcv], os; split; [reflexivity|exact Y]].
      destruct (U _ _ _ _ Y) as [Z0|Z0]; [left; exact Z0|].
      apply current_fam in Z0 as [f Z0]. destruct f.
      + right. exists [Event ifs tcv], os. split; [reflexivity|]. apply current_fam. exists V4. unfold orun. cbn [fold_left ostep]. unfold if_event. rewrite update_other by discriminate. exact Z0.
      + left. apply is_local_iff. left. apply current_fam. exists V6. rewrite update_other in Z0 by discriminate. exact Z0.
    - left. exact X.
    - left. revert X. unfold forget. destruct (ofind b (o_old s)) as [t|]; [|auto]. destruct (t <=? o_now s); [|auto].
      rewrite !is_local_iff. unfold current. cbn [o_v4 o_v6 o_old]. rewrite ofind_del. destruct (aeqb b a); [|auto]. intros [X|[? X]]; [auto|discriminate]. }
  intros H. destruct (G _ H) as [X|X]; [|exact X]. discriminate.
Qed.

(** And it is forgotten: after twice the validity time, when its timer has been
    handled. *)
Lemma deadline_bound now rel : 0 <= now -> 0 <= rel -> now + rel + 200 < 2 ^ 64 -> deadline now rel <= now + rel + 100.
Proof.
  intros N R L. unfold deadline, calc_clock. change (0 =? 0) with true. cbn [negb].
  assert (forall x, 0 <= x < 2 ^ 64 -> u64 x = x) as U by (intros x X; unfold u64; apply Z.mod_small; exact X).
  rewrite (U (now + rel)) by lia. unfold SLICE. rewrite (U (now + rel + 100)) by lia.
  pose proof (Z.mod_pos_bound (now + rel + 100) 100 ltac:(lia)). rewrite U by lia. lia.
Qed.
Theorem C122_forgotten acl ll os1 os2 a hi : 0 <= hi -> odur (os1 ++ os2) + 2 * hi + 200 < 2 ^ 64 -> Forall (tcv_in 0 hi) (os1 ++ os2) ->
  2 * hi + 100 <= odur os2 ->
  (forall p q, os2 = p ++ q -> ~ current (orun acl ll (os1 ++ p) ost0) a) ->
  is_local (orun acl ll (os1 ++ os2 ++ [Forget a]) ost0) a = false.
Proof.
  intros HI OV FA D NC.
  (* the clock of [a] is never more than 2*hi + 100 in the future *)
  assert (forall os s, (forall x t, ofind x (o_old s) = Some t -> t <= o_now s + 2 * hi + 100) -> 0 <= o_now s -> o_now s + odur os + 2 * hi + 200 < 2 ^ 64 -> Forall (tcv_in 0 hi) os ->
    (forall x t, ofind x (o_old (orun acl ll os s)) = Some t -> t <= o_now (orun acl ll os s) + 2 * hi + 100) /\ o_now (orun acl ll os s) = o_now s + odur os) as G1.
  { induction os as [|o os IH]; intros s B N L F; [split; [exact B|cbn; lia]|]. unfold orun in *. cbn [fold_left].
    pose proof (Forall_inv F) as F1. apply Forall_inv_tail in F. pose proof (odur_nonneg os).
    destruct o as [ifs tcv|d|b]; cbn [odur ostep] in *.
    - assert (forall g s0, o_now s0 = o_now s -> (forall x t, ofind x (o_old s0) = Some t -> t <= o_now s0 + 2 * hi + 100) -> forall x t, ofind x (o_old (update_originator acl ll g ifs tcv s0)) = Some t -> t <= o_now s0 + 2 * hi + 100) as U.
      { intros g s0 E0 B0 x t X. destruct (set_spec acl ll g ifs tcv s0) as (_ & [E|(b & _ & _ & E)]); rewrite E in X; [exact (B0 x t X)|].
        destruct (aeqb b x); [discriminate|]. destruct (is_orig _ x); [|exact (B0 x t X)]. injection X as <-. unfold tcv_in in F1.
        assert (u64 (tcv * 2) = tcv * 2) as -> by (unfold u64; apply Z.mod_small; lia). pose proof (deadline_bound (o_now s0) (tcv * 2)). lia. }
      destruct (IH (if_event acl ll ifs tcv s)) as [I1 I2]; rewrite ?event_now; auto; try lia.
      { unfold if_event. intros x t X. clear IH. pose proof (U V6 (update_originator acl ll V4 ifs tcv s)) as U6. pose proof (proj1 (set_spec acl ll V4 ifs tcv s)) as E. cbv zeta in E. rewrite E in U6.
        refine (U6 eq_refl _ x t X). apply U; auto. }
      split; [exact I1|]. rewrite I2, event_now. reflexivity.
    - destruct (IH {| o_now := o_now s + Z.max 0 d; o_v4 := o_v4 s; o_v6 := o_v6 s; n_v4 := n_v4 s; n_v6 := n_v6 s; o_old := o_old s |}) as [I1 I2]; cbn [o_now o_old]; try (intros x t X; specialize (B x t X); lia); auto; try lia.
      split; [exact I1|]. rewrite I2. cbn [o_now]. lia.
    - destruct (IH (forget b s)) as [I1 I2]; rewrite ?forget_now; auto; try lia.
      { intros x t X. apply (B x t). revert X. unfold forget. destruct (ofind b (o_old s)) as [t0|]; [|auto]. destruct (t0 <=? o_now s); [|auto]. cbn [o_old]. rewrite ofind_del. destruct (aeqb b x); [discriminate|auto]. }
      split; [exact I1|]. rewrite I2, forget_now. reflexivity. }
  assert (forall a b : list oop, odur (a ++ b) = odur a + odur b) as OA.
  { intros x y. induction x as [|[] x IH]; cbn [app odur]; lia. }
  assert (forall x y s, orun acl ll (x ++ y) s = orun acl ll y (orun acl ll x s)) as RA by (intros; unfold orun; apply fold_left_app).
  rewrite OA in OV. apply Forall_app in FA as [FA1 FA2]. pose proof (odur_nonneg os1). pose proof (odur_nonneg os2).
  destruct (G1 os1 ost0) as [B1 N1]; [intros x t X; discriminate|cbn; lia|cbn; lia|exact FA1|].
  set (s1 := orun acl ll os1 ost0) in *.
  (* as it is not current from s1 on, its clock does not change *)
  assert (forall os s T, (forall t, ofind a (o_old s) = Some t -> t <= T) -> (forall p q, os = p ++ q -> ~ current (orun acl ll p s) a) -> forall t, ofind a (o_old (orun acl ll os s)) = Some t -> t <= T) as G2.
  { induction os as [|o os IH]; intros s T B N t X; [exact (B t X)|]. unfold orun in *. cbn [fold_left] in X.
    refine (IH (ostep acl ll o s) T _ _ t X); [|intros p q ->; exact (N (o :: p) q eq_refl)].
    intros t0 X0. pose proof (N [] _ eq_refl) as C0. cbn [fold_left] in C0.
    destruct o as [ifs tcv|d|b]; cbn [ostep] in X0.
    - assert (forall g s0, ~ current s0 a -> (forall t, ofind a (o_old s0) = Some t -> t <= T) -> forall t, ofind a (o_old (update_originator acl ll g ifs tcv s0)) = Some t -> t <= T) as U.
      { intros g s0 C1 B0 t1 Y. destruct (set_spec acl ll g ifs tcv s0) as (_ & [E|(b & _ & _ & E)]); [rewrite E in Y; exact (B0 t1 Y)|]. rewrite E in Y.
        destruct (aeqb b a); [discriminate|]. destruct (is_orig (orig_get g s0) a) eqn:O; [|exact (B0 t1 Y)]. exfalso. apply C1. apply current_fam. exists g. now apply is_orig_eq. }
      assert (~ current (update_originator acl ll V4 ifs tcv s) a) as C1.
      { pose proof (N [Event ifs tcv] os eq_refl) as C2. cbn [fold_left ostep] in C2. intros Y. apply current_fam in Y as [[] Y].
        - apply C2, current_fam. exists V4. unfold if_event. rewrite update_other by discriminate. exact Y.
        - apply C0, current_fam. exists V6. rewrite update_other in Y by discriminate. exact Y. }
      unfold if_event in X0. exact (U V6 _ C1 (U V4 s C0 B) t0 X0).
    - exact (B t0 X0).
    - apply B. revert X0. unfold forget. destruct (ofind b (o_old s)) as [t1|]; [|auto]. destruct (t1 <=? o_now s); [|auto]. cbn [o_old]. rewrite ofind_del. destruct (aeqb b a); [discriminate|auto]. }
  assert (forall t, ofind a (o_old (orun acl ll os2 s1)) = Some t -> t <= o_now s1 + 2 * hi + 100) as B2.
  { apply G2; [intros t; apply B1|]. intros p q E. unfold s1. rewrite <- RA. exact (NC p q E). }
  destruct (G1 os2 s1 B1) as [_ N2]; [rewrite N1; cbn; lia|rewrite N1; cbn [ost0 o_now]; lia|exact FA2|].
  rewrite RA, RA. fold s1. assert (~ current (orun acl ll os2 s1) a) as C2 by (unfold s1; rewrite <- RA; apply (NC os2 []); now rewrite app_nil_r).
  set (s2 := orun acl ll os2 s1) in *. unfold orun. cbn [fold_left ostep].
  destruct (is_local (forget a s2) a) eqn:IL; [|reflexivity]. exfalso. apply is_local_iff in IL. unfold forget in IL.
  destruct (ofind a (o_old s2)) as [t|] eqn:E; [|destruct IL as [IL|[t IL]]; [exact (C2 IL)|congruence]].
  specialize (B2 t eq_refl). destruct (Z.leb_spec t (o_now s2)) as [T|T]; [|lia].
  destruct IL as [IL|[t' IL]]; [exact (C2 IL)|]. cbn [o_old] in IL. rewrite ofind_del, aeqb_refl in IL. discriminate.
Qed.

(** ** Examples and refutations *)
Definition acl1 (a : addr) : bool := negb (aeqb a (A4 127)).
Definition ll1 (a : addr) : bool := match a with A4 x => x <? 100 | A6 x => x <? 100 | AX _ => false end.
Definition ifs1 : list iface := [{| i_loop := false; i_addrs := [A4 5; A4 200; A6 7; AX 3] |}; {| i_loop := true; i_addrs := [A4 127; A4 201; A6 8] |}].
Example C121_ex : offers acl1 V4 ifs1 (A4 200) false /\
  orig_get V4 (orun acl1 ll1 [Event ifs1 1000] ost0) = Some (A4 201) /\ orig_get V6 (orun acl1 ll1 [Event ifs1 1000] ost0) = Some (A6 8).
Proof. split; [|split; reflexivity]. split; [reflexivity|]. split; [reflexivity|]. exists (hd {| i_loop := false; i_addrs := [] |} ifs1). cbn. auto. Qed.
Example C121_ex_kept : best_one acl1 ll1 V6 ifs1 (A6 8) true.
Proof.
  split; [split; [reflexivity|]; split; [reflexivity|]; exists {| i_loop := true; i_addrs := [A4 127; A4 201; A6 8] |}; cbn; intuition|].
  intros b l (F & _ & i & [<-|[<-|[]]] & IB & <-); cbn in IB; repeat destruct IB as [<-|IB]; try discriminate; try contradiction; cbn; lia.
Qed.
Example C122_ex : let s := orun acl1 ll1 [Event ifs1 1000] ost0 in let os := [OWait 500; Event [{| i_loop := false; i_addrs := [A4 150] |}] 1000; OWait 1400; Forget (A4 201)] in
  current s (A4 201) /\ odur os < 2 * 1000 /\ Forall (tcv_in 1000 1000) os /\ ~ current (orun acl1 ll1 os s) (A4 201) /\ is_local (orun acl1 ll1 os s) (A4 201) = true /\
  is_local (orun acl1 ll1 (os ++ [OWait 2100; Forget (A4 201)]) s) (A4 201) = false.
Proof. cbv zeta. split; [left; reflexivity|]. split; [cbn; lia|]. split; [repeat constructor; cbn; lia|]. split; [intros [X|X]; discriminate|]. split; vm_compute; reflexivity. Qed.

(** False of the code: a router without any usable address keeps its originator,
    an address that it does not have any more. *)
Theorem C121_stale_refuted : exists acl ll os ifs a, orig_get V4 (orun acl ll (os ++ [Event ifs 1000]) ost0) = Some a /\ forall l, ~ offers acl V4 ifs a l.
Proof.
  exists acl1, ll1, [Event ifs1 1000], [], (A4 201). split; [reflexivity|]. intros l (_ & _ & i & [] & _).
Qed.
(** False of the code: an originator which is as good as any other is not kept if
    it is on another interface, too. *)
Theorem C121_kept_refuted : exists acl ll s ifs o lp, orig_get V4 s = Some o /\ best_one acl ll V4 ifs o lp /\ orig_get V4 (if_event acl ll ifs 1000 s) <> Some o.
Proof.
  exists acl1, ll1, (orig_set (A4 201) 1000 ost0), [{| i_loop := true; i_addrs := [A4 200; A4 201] |}; {| i_loop := false; i_addrs := [A4 201] |}], (A4 201), true.
  split; [reflexivity|]. split; [|cbn; discriminate].
  split; [split; [reflexivity|]; split; [reflexivity|]; eexists; split; [left; reflexivity|]; cbn; auto|].
  intros b l (F & _ & i & [<-|[<-|[]]] & IB & <-); cbn in IB; repeat destruct IB as [<-|IB]; try contradiction; vm_compute; discriminate.
Qed.

Print Assumptions C121_best_partial.
Print Assumptions C121_kept_partial.
Print Assumptions C121_nhdp.
Print Assumptions C121_stale_refuted.
Print Assumptions C121_kept_refuted.
Print Assumptions C122_remembered.
Print Assumptions C122_only_originators.
Print Assumptions C122_forgotten.
