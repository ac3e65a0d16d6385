(** Tree part of avl.c: rotations, rebalancing, removal. *)
From Coq Require Import Permutation.
From Verif Require Import Base ListModel ListProofs AvlModel AvlSpec.

Inductive frame := FL (x b : Z) (r : tree) | FR (l : tree) (x b : Z).
Definition fnode f := match f with FL x _ _ => x | FR _ x _ => x end.
Definition parc (c : list frame) : option Z := match c with [] => None | f :: _ => Some (fnode f) end.
Definition plug1 f t := match f with FL x b r => N t x b r | FR l x b => N l x b t end.
Fixpoint plug (c : list frame) t := match c with [] => t | f :: c => plug c (plug1 f t) end.
Fixpoint repc h (c : list frame) (p : option Z) : Prop :=
  match c with
  | [] => root h = p
  | FL x b r :: c => par h x = parc c /\ lft h x = p /\ rgt h x = rootp r /\ bal h x = b /\ rep h r (Some x) /\ repc h c (Some x)
  | FR l x b :: c => par h x = parc c /\ lft h x = rootp l /\ rgt h x = p /\ bal h x = b /\ rep h l (Some x) /\ repc h c (Some x)
  end.
Definition fnodes f := match f with FL x _ r => x :: inorder r | FR l x _ => x :: inorder l end.
Fixpoint cnodes (c : list frame) := match c with [] => [] | f :: c => fnodes f ++ cnodes c end.
Fixpoint lpart (c : list frame) : list Z :=
  match c with [] => [] | FL _ _ _ :: c => lpart c | FR l x _ :: c => lpart c ++ inorder l ++ [x] end.
Fixpoint rpart (c : list frame) : list Z :=
  match c with [] => [] | FL x _ r :: c => x :: inorder r ++ rpart c | FR _ _ _ :: c => rpart c end.
Fixpoint ctxok (c : list frame) (n : Z) : Prop :=
  match c with
  | [] => True
  | FL x b r :: c => balanced r /\ b = height r - n /\ -1 <= b <= 1 /\ ctxok c (1 + Z.max n (height r))
  | FR l x b :: c => balanced l /\ b = n - height l /\ -1 <= b <= 1 /\ ctxok c (1 + Z.max (height l) n)
  end.

Lemma holds_plug c : forall t h, holds h (plug c t) <-> rep h t (parc c) /\ repc h c (rootp t).
Proof.
  induction c as [|f c IH]; intros t h.
  - cbn. unfold holds. tauto.
  - cbn [plug]. rewrite IH. destruct f; cbn; tauto.
Qed.
Lemma inorder_plug c : forall t, inorder (plug c t) = lpart c ++ inorder t ++ rpart c.
Proof.
  induction c as [|f c IH]; intros t; cbn [plug lpart rpart].
  - cbn. now rewrite app_nil_r.
  - rewrite IH. destruct f; cbn [plug1 inorder lpart rpart]; rewrite <- !app_assoc; cbn [app]; auto.
Qed.
Lemma perm_plug c : forall t, Permutation (inorder (plug c t)) (inorder t ++ cnodes c).
Proof.
  induction c as [|f c IH]; intros t; cbn [plug cnodes].
  - rewrite app_nil_r. auto.
  - rewrite IH. rewrite app_assoc. apply Permutation_app_tail.
    destruct f; cbn [plug1 inorder fnodes]; auto.
    rewrite Permutation_app_comm. cbn. rewrite <- Permutation_middle. constructor. reflexivity.
Qed.
Lemma height_nonneg t : 0 <= height t.
Proof. induction t; cbn [height]; lia. Qed.
Lemma balanced_plug c : forall t, balanced (plug c t) <-> balanced t /\ ctxok c (height t).
Proof.
  induction c as [|f c IH]; intros t; cbn [plug ctxok].
  - tauto.
  - rewrite IH. destruct f; cbn [plug1 balanced height]; tauto.
Qed.
Lemma in_plug T x : In x (inorder T) -> exists c l b r, T = plug c (N l x b r).
Proof.
  assert (G : forall T c0, In x (inorder T) -> exists c l b r, plug c0 T = plug c (N l x b r)).
  { clear T. induction T as [|l IHl y b r IHr]; intros c0; [intros []|].
    cbn [inorder]. intros H. apply in_app_or in H as [H|[->|H]].
    - destruct (IHl (FL y b r :: c0) H) as (c & l' & b' & r' & E). eauto.
    - eauto.
    - destruct (IHr (FR l y b :: c0) H) as (c & l' & b' & r' & E). eauto. }
  intros H. apply (G T [] H).
Qed.
Lemma plug_app c1 : forall c2 t, plug (c1 ++ c2) t = plug c2 (plug c1 t).
Proof. induction c1; cbn; auto. Qed.

Lemma root_in t x : rootp t = Some x -> In x (inorder t).
Proof. destruct t; cbn; [discriminate|]. intros [= ->]. apply in_or_app; right; left; auto. Qed.
Lemma parc_in c x : parc c = Some x -> In x (cnodes c).
Proof. destruct c as [|[] c]; cbn; intros [= ->]; auto. Qed.

(** agreement on a set of nodes *)
Definition agree (S : list Z) (h h' : aheap) : Prop :=
  forall y, In y S -> par h' y = par h y /\ lft h' y = lft h y /\ rgt h' y = rgt h y /\ bal h' y = bal h y.
Lemma rep_agree h h' t : forall p, agree (inorder t) h h' -> rep h t p -> rep h' t p.
Proof.
  induction t as [|l IHl x b r IHr]; intros p A R; cbn in *; auto.
  destruct (A x) as (-> & -> & -> & ->); [apply in_or_app; right; left; auto|].
  destruct R as (R1 & R2 & R3 & R4 & R5 & R6). repeat (split; [assumption|]). split.
  - apply IHl; auto. intros y Hy. apply A, in_or_app; auto.
  - apply IHr; auto. intros y Hy. apply A, in_or_app; right; right; auto.
Qed.
Lemma repc_agree h h' c : forall p, root h' = root h -> agree (cnodes c) h h' -> repc h c p -> repc h' c p.
Proof.
  induction c as [|f c IH]; intros p RT A R.
  - cbn in *. congruence.
  - assert (A1 : agree (cnodes c) h h') by (intros y Hy; apply A; cbn; apply in_or_app; auto).
    destruct f as [x b r|l x b]; cbn [repc] in *; (destruct (A x) as (-> & -> & -> & ->); [left; auto|]);
    destruct R as (R1 & R2 & R3 & R4 & R5 & R6); repeat (split; [assumption|]); (split; [|apply IH; auto]);
    (eapply rep_agree; [|eassumption]); intros y Hy; apply A; right; cbn; apply in_or_app; auto.
Qed.
Lemma rep_reparent h h' t p p' : NoDup (inorder t) ->
  (forall y, In y (inorder t) -> lft h' y = lft h y /\ rgt h' y = rgt h y /\ bal h' y = bal h y /\
             par h' y = if ptr_eqb (Some y) (rootp t) then p' else par h y) ->
  rep h t p -> rep h' t p'.
Proof.
  destruct t as [|l x b r]; [cbn; auto|]. cbn [inorder rootp rep ptr_eqb]. intros ND A R.
  destruct (A x) as (-> & -> & -> & ->); [apply in_or_app; right; left; auto|]. rewrite Z.eqb_refl.
  destruct R as (R1 & R2 & R3 & R4 & R5 & R6). split; [reflexivity|]. repeat (split; [assumption|]).
  apply NoDup_remove in ND as [_ ND].
  split; (eapply rep_agree; [|eassumption]); intros y Hy.
  - destruct (A y) as (A1 & A2 & A3 & A4); [apply in_or_app; auto|]. rewrite A1, A2, A3, A4.
    destruct (Z.eqb_spec y x); auto. subst. exfalso. apply ND, in_or_app; auto.
  - destruct (A y) as (A1 & A2 & A3 & A4); [apply in_or_app; right; right; auto|]. rewrite A1, A2, A3, A4.
    destruct (Z.eqb_spec y x); auto. subst. exfalso. apply ND, in_or_app; auto.
Qed.

(** counting makes disjointness a matter of arithmetic *)
Notation cn := (count_occ Z.eq_dec).
Lemma nodup_cn l : NoDup l <-> forall z, (cn l z <= 1)%nat.
Proof. apply NoDup_count_occ. Qed.
Lemma in_cn l x : In x l -> (cn l x > 0)%nat.
Proof. apply count_occ_In. Qed.
Lemma cn_cons_same x l : cn (x :: l) x = S (cn l x).
Proof. apply count_occ_cons_eq; auto. Qed.
Lemma cn_cons_other x l y : x <> y -> cn (x :: l) y = cn l y.
Proof. apply count_occ_cons_neq. Qed.
Ltac cncase H :=
  repeat first [ rewrite count_occ_app in H
               | match type of H with context [cn (?a :: ?l) ?b] =>
                   destruct (Z.eq_dec a b) as [?|?]; [try subst a; try subst b; rewrite cn_cons_same in H | rewrite (cn_cons_other a l b) in H by assumption] end ].
Ltac inall := repeat match goal with H : In ?x ?l |- _ => apply in_cn in H end.
(** goal False from [HN : forall z, cn big z <= 1] at [z] *)
Ltac dis HN z := exfalso; let H := fresh "Hcn" in pose proof (HN z) as H; cbn [app inorder cnodes fnodes] in H; inall; cncase H; lia.

(** set_child *)
Lemma set_child_par h p o n : par (set_child h p o n) = par h.
Proof. unfold set_child. destruct p; [destruct (ptr_eqb _ _)|]; reflexivity. Qed.
Lemma set_child_bal h p o n : bal (set_child h p o n) = bal h.
Proof. unfold set_child. destruct p; [destruct (ptr_eqb _ _)|]; reflexivity. Qed.
Lemma set_child_fol h p o n : fol (set_child h p o n) = fol h.
Proof. unfold set_child. destruct p; [destruct (ptr_eqb _ _)|]; reflexivity. Qed.
Lemma set_child_ls h p o n : ls (set_child h p o n) = ls h.
Proof. unfold set_child. destruct p; [destruct (ptr_eqb _ _)|]; reflexivity. Qed.
Lemma set_child_cnt h p o n : cnt (set_child h p o n) = cnt h.
Proof. unfold set_child. destruct p; [destruct (ptr_eqb _ _)|]; reflexivity. Qed.
Lemma set_child_lft h p o n y : p <> Some y -> lft (set_child h p o n) y = lft h y.
Proof. intros H. unfold set_child. destruct p; [destruct (ptr_eqb _ _)|]; cbn; auto. apply upd_other. congruence. Qed.
Lemma set_child_rgt h p o n y : p <> Some y -> rgt (set_child h p o n) y = rgt h y.
Proof. intros H. unfold set_child. destruct p; [destruct (ptr_eqb _ _)|]; cbn; auto. apply upd_other. congruence. Qed.

Lemma repc_set_child h c x q : repc h c (Some x) -> ~ In x (cnodes c) -> NoDup (cnodes c) ->
  repc (set_child h (parc c) x q) c q.
Proof.
  destruct c as [|f c]; cbn [parc set_child]; intros R NI ND; [reflexivity|].
  assert (HN := proj1 (nodup_cn _) ND).
  destruct f as [y b r|l y b]; cbn [fnode repc] in *; destruct R as (R1 & R2 & R3 & R4 & R5 & R6).
  - rewrite R2. cbn [ptr_eqb]. rewrite Z.eqb_refl. cbn. rewrite upd_same. repeat (split; [assumption || reflexivity|]).
    split.
    + eapply rep_agree; [|exact R5]. intros z Hz. cbn. repeat split; auto. apply upd_other. intros ->. dis HN y.
    + eapply repc_agree; [| |exact R6]; [reflexivity|]. intros z Hz. cbn. repeat split; auto. apply upd_other. intros ->. dis HN y.
  - destruct (ptr_eqb (lft h y) (Some x)) eqn:E.
    { exfalso. apply NI. rewrite R2 in E. destruct l as [|l1 z lb l2]; cbn in E; [discriminate|]. apply Z.eqb_eq in E. subst.
      cbn. right. apply in_or_app; left. apply in_or_app; right; left; auto. }
    cbn. rewrite upd_same. repeat (split; [assumption || reflexivity|]).
    split.
    + eapply rep_agree; [|exact R5]. intros z Hz. cbn. repeat split; auto. apply upd_other. intros ->. dis HN y.
    + eapply repc_agree; [| |exact R6]; [reflexivity|]. intros z Hz. cbn. repeat split; auto. apply upd_other. intros ->. dis HN y.
Qed.

(** everything the tree functions leave alone *)
Definition same_rest (h h' : aheap) : Prop := ls h' = ls h /\ fol h' = fol h /\ cnt h' = cnt h.
Lemma same_rest_refl h : same_rest h h. Proof. repeat split. Qed.
Lemma same_rest_trans a b c : same_rest a b -> same_rest b c -> same_rest a c.
Proof. unfold same_rest. intuition congruence. Qed.

(** balance repair at the end of a rotation *)
Definition fix_right h node left :=
  let h := set_bal h node (bal h node + 1) in
  let h := if bal h left <? 0 then set_bal h node (bal h node - bal h left) else h in
  let h := set_bal h left (bal h left + 1) in
  if bal h node >? 0 then set_bal h left (bal h left + bal h node) else h.
Definition fix_left h node right :=
  let h := set_bal h node (bal h node - 1) in
  let h := if bal h right >? 0 then set_bal h node (bal h node - bal h right) else h in
  let h := set_bal h right (bal h right - 1) in
  if bal h node <? 0 then set_bal h right (bal h right + bal h node) else h.
Definition rr_x b lb := if lb <? 0 then s8 (s8 (b + 1) - lb) else s8 (b + 1).
Definition rr_l b lb := if rr_x b lb >? 0 then s8 (s8 (lb + 1) + rr_x b lb) else s8 (lb + 1).
Definition rl_x b rb := if rb >? 0 then s8 (s8 (b - 1) - rb) else s8 (b - 1).
Definition rl_r b rb := if rl_x b rb <? 0 then s8 (s8 (rb - 1) + rl_x b rb) else s8 (rb - 1).

Definition bal_only h h' (x l bx bl : Z) : Prop :=
  ls h' = ls h /\ par h' = par h /\ lft h' = lft h /\ rgt h' = rgt h /\ fol h' = fol h /\ root h' = root h /\ cnt h' = cnt h /\
  bal h' x = bx /\ bal h' l = bl /\ forall y, y <> x -> y <> l -> bal h' y = bal h y.
Lemma fix_right_spec h x l : x <> l -> bal_only h (fix_right h x l) x l (rr_x (bal h x) (bal h l)) (rr_l (bal h x) (bal h l)).
Proof.
  intros NE. assert (NE' : l <> x) by congruence. unfold fix_right, rr_l, rr_x, bal_only. cbn [set_bal bal].
  rewrite upd_same, (upd_other _ x _ l) by auto.
  destruct (bal h l <? 0) eqn:E1; cbn [set_bal bal]; rewrite ?upd_same; rewrite ?(upd_other _ x _ l), ?(upd_other _ l _ x) by auto; rewrite ?upd_same.
  - destruct (s8 (s8 (bal h x + 1) - bal h l) >? 0); cbn [set_bal bal ls par lft rgt fol root cnt];
    repeat (split; [reflexivity|]); rewrite ?(upd_other _ l _ x) by auto; rewrite ?upd_same;
    repeat (split; [reflexivity|]); intros y H1 H2; rewrite !upd_other; auto.
  - destruct (s8 (bal h x + 1) >? 0); cbn [set_bal bal ls par lft rgt fol root cnt];
    repeat (split; [reflexivity|]); rewrite ?(upd_other _ l _ x) by auto; rewrite ?upd_same;
    repeat (split; [reflexivity|]); intros y H1 H2; rewrite !upd_other; auto.
Qed.
Lemma fix_left_spec h x l : x <> l -> bal_only h (fix_left h x l) x l (rl_x (bal h x) (bal h l)) (rl_r (bal h x) (bal h l)).
Proof.
  intros NE. assert (NE' : l <> x) by congruence. unfold fix_left, rl_r, rl_x, bal_only. cbn [set_bal bal].
  rewrite upd_same, (upd_other _ x _ l) by auto.
  destruct (bal h l >? 0) eqn:E1; cbn [set_bal bal]; rewrite ?upd_same; rewrite ?(upd_other _ x _ l), ?(upd_other _ l _ x) by auto; rewrite ?upd_same.
  - destruct (s8 (s8 (bal h x - 1) - bal h l) <? 0); cbn [set_bal bal ls par lft rgt fol root cnt];
    repeat (split; [reflexivity|]); rewrite ?(upd_other _ l _ x) by auto; rewrite ?upd_same;
    repeat (split; [reflexivity|]); intros y H1 H2; rewrite !upd_other; auto.
  - destruct (s8 (bal h x - 1) <? 0); cbn [set_bal bal ls par lft rgt fol root cnt];
    repeat (split; [reflexivity|]); rewrite ?(upd_other _ l _ x) by auto; rewrite ?upd_same;
    repeat (split; [reflexivity|]); intros y H1 H2; rewrite !upd_other; auto.
Qed.

Lemma set_par_if_par h p v y : par (set_par_if h p v) y = if ptr_eqb (Some y) p then v else par h y.
Proof. destruct p; cbn; auto. Qed.
Lemma set_par_if_other h p v : lft (set_par_if h p v) = lft h /\ rgt (set_par_if h p v) = rgt h /\ bal (set_par_if h p v) = bal h /\
  root (set_par_if h p v) = root h /\ ls (set_par_if h p v) = ls h /\ fol (set_par_if h p v) = fol h /\ cnt (set_par_if h p v) = cnt h.
Proof. destruct p; cbn; auto 10. Qed.

Lemma ptr_eqb_root_false t y : ~ In y (inorder t) -> ptr_eqb (Some y) (rootp t) = false.
Proof.
  intros H. destruct t as [|l x b r]; cbn; auto. apply Z.eqb_neq. intros ->. apply H. cbn. apply in_or_app; right; left; auto.
Qed.

Lemma rotate_right_ok c h ll l lb lr x b r :
  rep h (N (N ll l lb lr) x b r) (parc c) -> repc h c (Some x) ->
  NoDup (inorder (N (N ll l lb lr) x b r) ++ cnodes c) ->
  exists h', avl_rotate_right h x = Some h' /\
    rep h' (N ll l (rr_l b lb) (N lr x (rr_x b lb) r)) (parc c) /\ repc h' c (Some l) /\ same_rest h h'.
Proof.
  intros R RC ND. assert (HN := proj1 (nodup_cn _) ND).
  cbn [rep rootp] in R. destruct R as (Px & Lx & Rx & Bx & (Pl & Ll & Rl & Bl & Rll & Rlr) & Rr).
  assert (xl : x <> l) by (intros ->; dis HN l).
  assert (xc : ~ In x (cnodes c)) by (intros Hy; dis HN x).
  assert (lc : ~ In l (cnodes c)) by (intros Hy; dis HN l).
  assert (px : parc c <> Some x) by (intros E; apply parc_in in E; auto).
  assert (pl : parc c <> Some l) by (intros E; apply parc_in in E; auto).
  unfold avl_rotate_right. rewrite Lx, Px. cbv zeta.
  set (h1 := set_par (set_par h l (parc c)) x (Some l)).
  set (h2 := set_child h1 (parc c) x (Some l)).
  match goal with |- exists h', Some (if bal ?a x >? 0 then _ else _) = _ /\ _ => idtac end.
  set (h3 := set_lft h2 x (rgt h2 l)). set (h4 := set_rgt h3 l (Some x)). set (h5 := set_par_if h4 (lft h4 x) (Some x)).
  change (exists h', Some (fix_right h5 x l) = Some h' /\ rep h' (N ll l (rr_l b lb) (N lr x (rr_x b lb) r)) (parc c) /\ repc h' c (Some l) /\ same_rest h h').
  eexists; split; [reflexivity|].
  assert (P1 : forall y, par h1 y = if y =? x then Some l else if y =? l then parc c else par h y) by reflexivity.
  assert (P2 : forall y, par h2 y = par h1 y) by (intros; unfold h2; now rewrite set_child_par).
  assert (L2 : forall y, parc c <> Some y -> lft h2 y = lft h y) by (intros; unfold h2; now rewrite set_child_lft).
  assert (R2 : forall y, parc c <> Some y -> rgt h2 y = rgt h y) by (intros; unfold h2; now rewrite set_child_rgt).
  assert (B2 : forall y, bal h2 y = bal h y) by (intros; unfold h2; now rewrite set_child_bal).
  assert (C2 : repc h2 c (Some l)).
  { apply repc_set_child; auto.
    - eapply repc_agree; [| |exact RC]; [reflexivity|]. intros y Hy. cbn. repeat split; auto. rewrite !upd_other; auto; intros ->; auto.
    - eapply NoDup_app_r; eauto. }
  assert (S2 : same_rest h h2) by (unfold same_rest, h2; rewrite set_child_ls, set_child_fol, set_child_cnt; repeat split).
  assert (G4 : lft h4 x = rootp lr).
  { unfold h4, h3. cbn. rewrite upd_same. rewrite R2 by auto. exact Rl. }
  destruct (set_par_if_other h4 (lft h4 x) (Some x)) as (O1 & O2 & O3 & O4 & O5 & O6 & O7). fold h5 in O1, O2, O3, O4, O5, O6, O7.
  assert (P5 : forall y, par h5 y = if ptr_eqb (Some y) (rootp lr) then Some x else par h1 y).
  { intros y. unfold h5. rewrite set_par_if_par, G4. cbn [h4 h3 set_rgt set_lft par]. now rewrite P2. }
  assert (L5 : forall y, lft h5 y = if y =? x then rootp lr else lft h2 y).
  { intros y. rewrite O1. unfold h4, h3. cbn [set_rgt set_lft lft]. unfold upd. rewrite R2 by auto. now rewrite Rl. }
  assert (R5 : forall y, rgt h5 y = if y =? l then Some x else rgt h2 y).
  { intros y. rewrite O2. reflexivity. }
  assert (B5 : forall y, bal h5 y = bal h y).
  { intros y. rewrite O3. unfold h4, h3. cbn [set_rgt set_lft bal]. apply B2. }
  assert (S5 : same_rest h h5). { unfold same_rest. rewrite O5, O6, O7. exact S2. }
  assert (T5 : root h5 = root h2) by (rewrite O4; reflexivity).
  clearbody h5. destruct (fix_right_spec h5 x l xl) as (F1 & F2 & F3 & F4 & F5 & F6 & F7 & F8 & F9 & F10).
  rewrite !B5, Bx, Bl in F8, F9. clear G4 O1 O2 O3 O4 O5 O6 O7.
  set (h6 := fix_right h5 x l) in *. clearbody h6.
  assert (AG : forall y, y <> x -> y <> l -> parc c <> Some y -> ptr_eqb (Some y) (rootp lr) = false ->
     par h6 y = par h y /\ lft h6 y = lft h y /\ rgt h6 y = rgt h y /\ bal h6 y = bal h y).
  { intros y H1 H2 H3 H4. rewrite F2, F3, F4, F10, P5, L5, R5, B5, P1, L2, R2 by auto. rewrite H4.
    apply Z.eqb_neq in H1, H2. rewrite H1, H2. auto. }
  assert (NP : forall y, ~ In y (cnodes c) -> parc c <> Some y) by (intros y Hy E; apply parc_in in E; auto).
  split; [|split].
  - cbn [rep rootp]. rewrite F8, F9, F2, F3, F4, !P5, !L5, !R5, !P1, !L2, !R2 by auto.
    rewrite !Z.eqb_refl. replace (l =? x) with false by (symmetry; apply Z.eqb_neq; auto). replace (x =? l) with false by (symmetry; apply Z.eqb_neq; auto).
    rewrite !ptr_eqb_root_false by (intros Hy; (dis HN l) || (dis HN x)).
    repeat (split; [assumption||reflexivity|]).
    split; [|repeat (split; [assumption||reflexivity|]); split].
    + eapply rep_agree; [|exact Rll]. intros y Hy. apply AG; [intros ->; dis HN x|intros ->; dis HN l|apply NP; intros Hz; dis HN y|].
      apply ptr_eqb_root_false. intros Hz; dis HN y.
    + eapply rep_reparent; [|  |exact Rlr].
      * apply nodup_cn. intros z. pose proof (HN z) as Hz. cbn [inorder] in Hz. cncase Hz; lia.
      * intros y Hy. rewrite F2, F3, F4, F10, P5, L5, R5, B5, P1, L2, R2; try (apply NP; intros Hz; dis HN y); try (intros ->; (dis HN x) || (dis HN l)).
        assert (E1 : y =? x = false) by (apply Z.eqb_neq; intros ->; dis HN x).
        assert (E2 : y =? l = false) by (apply Z.eqb_neq; intros ->; dis HN l). rewrite E1, E2. auto.
    + eapply rep_agree; [|exact Rr]. intros y Hy. apply AG; [intros ->; dis HN x|intros ->; dis HN l|apply NP; intros Hz; dis HN y|].
      apply ptr_eqb_root_false. intros Hz; dis HN y.
  - eapply repc_agree; [| |exact C2]; [congruence|]. intros y Hy.
    assert (y <> x) by (intros ->; auto). assert (y <> l) by (intros ->; auto).
    rewrite F2, F3, F4, F10, P5, L5, R5, B5, B2, P2 by auto. apply Z.eqb_neq in H, H0. rewrite H, H0.
    rewrite ptr_eqb_root_false by (intros Hz; dis HN y). auto.
  - destruct S5 as (S51 & S52 & S53). repeat split; congruence.
Qed.

Lemma rotate_left_ok c h ll l lb lr x b r :
  rep h (N r x b (N lr l lb ll)) (parc c) -> repc h c (Some x) ->
  NoDup (inorder (N r x b (N lr l lb ll)) ++ cnodes c) ->
  exists h', avl_rotate_left h x = Some h' /\
    rep h' (N (N r x (rl_x b lb) lr) l (rl_r b lb) ll) (parc c) /\ repc h' c (Some l) /\ same_rest h h'.
Proof.
  intros R RC ND. assert (HN := proj1 (nodup_cn _) ND).
  cbn [rep rootp] in R. destruct R as (Px & Rx & Lx & Bx & Rr & (Pl & Rl & Ll & Bl & Rlr & Rll)).
  assert (xl : x <> l) by (intros ->; dis HN l).
  assert (xc : ~ In x (cnodes c)) by (intros Hy; dis HN x).
  assert (lc : ~ In l (cnodes c)) by (intros Hy; dis HN l).
  assert (px : parc c <> Some x) by (intros E; apply parc_in in E; auto).
  assert (pl : parc c <> Some l) by (intros E; apply parc_in in E; auto).
  unfold avl_rotate_left. rewrite Lx, Px. cbv zeta.
  set (h1 := set_par (set_par h l (parc c)) x (Some l)).
  set (h2 := set_child h1 (parc c) x (Some l)).
  match goal with |- exists h', Some (if bal ?a x <? 0 then _ else _) = _ /\ _ => idtac end.
  set (h3 := set_rgt h2 x (lft h2 l)). set (h4 := set_lft h3 l (Some x)). set (h5 := set_par_if h4 (rgt h4 x) (Some x)).
  change (exists h', Some (fix_left h5 x l) = Some h' /\ rep h' (N (N r x (rl_x b lb) lr) l (rl_r b lb) ll) (parc c) /\ repc h' c (Some l) /\ same_rest h h').
  eexists; split; [reflexivity|].
  assert (P1 : forall y, par h1 y = if y =? x then Some l else if y =? l then parc c else par h y) by reflexivity.
  assert (P2 : forall y, par h2 y = par h1 y) by (intros; unfold h2; now rewrite set_child_par).
  assert (L2 : forall y, parc c <> Some y -> rgt h2 y = rgt h y) by (intros; unfold h2; now rewrite set_child_rgt).
  assert (R2 : forall y, parc c <> Some y -> lft h2 y = lft h y) by (intros; unfold h2; now rewrite set_child_lft).
  assert (B2 : forall y, bal h2 y = bal h y) by (intros; unfold h2; now rewrite set_child_bal).
  assert (C2 : repc h2 c (Some l)).
  { apply repc_set_child; auto.
    - eapply repc_agree; [| |exact RC]; [reflexivity|]. intros y Hy. cbn. repeat split; auto. rewrite !upd_other; auto; intros ->; auto.
    - eapply NoDup_app_r; eauto. }
  assert (S2 : same_rest h h2) by (unfold same_rest, h2; rewrite set_child_ls, set_child_fol, set_child_cnt; repeat split).
  assert (G4 : rgt h4 x = rootp lr).
  { unfold h4, h3. cbn. rewrite upd_same. rewrite R2 by auto. exact Rl. }
  destruct (set_par_if_other h4 (rgt h4 x) (Some x)) as (O2 & O1 & O3 & O4 & O5 & O6 & O7). fold h5 in O1, O2, O3, O4, O5, O6, O7.
  assert (P5 : forall y, par h5 y = if ptr_eqb (Some y) (rootp lr) then Some x else par h1 y).
  { intros y. unfold h5. rewrite set_par_if_par, G4. cbn [h4 h3 set_lft set_rgt par]. now rewrite P2. }
  assert (L5 : forall y, rgt h5 y = if y =? x then rootp lr else rgt h2 y).
  { intros y. rewrite O1. unfold h4, h3. cbn [set_lft set_rgt rgt]. unfold upd. rewrite R2 by auto. now rewrite Rl. }
  assert (R5 : forall y, lft h5 y = if y =? l then Some x else lft h2 y).
  { intros y. rewrite O2. reflexivity. }
  assert (B5 : forall y, bal h5 y = bal h y).
  { intros y. rewrite O3. unfold h4, h3. cbn [set_lft set_rgt bal]. apply B2. }
  assert (S5 : same_rest h h5). { unfold same_rest. rewrite O5, O6, O7. exact S2. }
  assert (T5 : root h5 = root h2) by (rewrite O4; reflexivity).
  clearbody h5. destruct (fix_left_spec h5 x l xl) as (F1 & F2 & F4 & F3 & F5 & F6 & F7 & F8 & F9 & F10).
  rewrite !B5, Bx, Bl in F8, F9. clear G4 O1 O2 O3 O4 O5 O6 O7.
  set (h6 := fix_left h5 x l) in *. clearbody h6.
  assert (AG : forall y, y <> x -> y <> l -> parc c <> Some y -> ptr_eqb (Some y) (rootp lr) = false ->
     par h6 y = par h y /\ lft h6 y = lft h y /\ rgt h6 y = rgt h y /\ bal h6 y = bal h y).
  { intros y H1 H2 H3 H4. rewrite F2, F3, F4, F10, P5, L5, R5, B5, P1, L2, R2 by auto. rewrite H4.
    apply Z.eqb_neq in H1, H2. rewrite H1, H2. auto. }
  assert (NP : forall y, ~ In y (cnodes c) -> parc c <> Some y) by (intros y Hy E; apply parc_in in E; auto).
  split; [|split].
  - cbn [rep rootp]. rewrite F8, F9, F2, F3, F4, !P5, !L5, !R5, !P1, !L2, !R2 by auto.
    rewrite !Z.eqb_refl. replace (l =? x) with false by (symmetry; apply Z.eqb_neq; auto). replace (x =? l) with false by (symmetry; apply Z.eqb_neq; auto).
    rewrite !ptr_eqb_root_false by (intros Hy; (dis HN l) || (dis HN x)).
    repeat (split; [assumption||reflexivity|]).
    split; [repeat (split; [assumption||reflexivity|]); split|].
    + eapply rep_agree; [|exact Rr]. intros y Hy. apply AG; [intros ->; dis HN x|intros ->; dis HN l|apply NP; intros Hz; dis HN y|].
      apply ptr_eqb_root_false. intros Hz; dis HN y.
    + eapply rep_reparent; [|  |exact Rlr].
      * apply nodup_cn. intros z. pose proof (HN z) as Hz. cbn [inorder] in Hz. cncase Hz; lia.
      * intros y Hy. rewrite F2, F3, F4, F10, P5, L5, R5, B5, P1, L2, R2; try (apply NP; intros Hz; dis HN y); try (intros ->; (dis HN x) || (dis HN l)).
        assert (E1 : y =? x = false) by (apply Z.eqb_neq; intros ->; dis HN x).
        assert (E2 : y =? l = false) by (apply Z.eqb_neq; intros ->; dis HN l). rewrite E1, E2. auto.
    + eapply rep_agree; [|exact Rll]. intros y Hy. apply AG; [intros ->; dis HN x|intros ->; dis HN l|apply NP; intros Hz; dis HN y|].
      apply ptr_eqb_root_false. intros Hz; dis HN y.
  - eapply repc_agree; [| |exact C2]; [congruence|]. intros y Hy.
    assert (y <> x) by (intros ->; auto). assert (y <> l) by (intros ->; auto).
    rewrite F2, F3, F4, F10, P5, L5, R5, B5, B2, P2 by auto. apply Z.eqb_neq in H, H0. rewrite H, H0.
    rewrite ptr_eqb_root_false by (intros Hz; dis HN y). auto.
  - destruct S5 as (S51 & S52 & S53). repeat split; congruence.
Qed.
