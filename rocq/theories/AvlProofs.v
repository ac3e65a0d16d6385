(** avl.c as a whole: tree, duplicates list and counter stay in step. *)
From Coq Require Import Permutation Sorted.
From Verif Require Import Base ListModel ListSpec ListProofs AvlModel AvlSpec AvlTreeProofs AvlRebalProofs CompModel CompProofs.

Lemma lists_inv_ext H A A' h : (forall hd, In hd H -> A' hd = A hd) -> lists_inv H A h -> lists_inv H A' h.
Proof.
  intros E (I1 & I2 & I3 & I4). split; [|split; [|split]].
  - intros hd Hh. rewrite E; auto.
  - intros hd Hh. rewrite E; auto.
  - intros x hd1 hd2 H1 H2. rewrite !E by auto. eauto.
  - intros x [F1 F2]. apply I4. split; auto. intros hd Hh. rewrite <- E; auto.
Qed.

(** one list with head [hd] *)
Definition list1 (hd : Z) (l : list Z) (h : lheap) : Prop := lists_inv [hd] (fun _ => l) h.
Lemma list1_nodup hd l h : list1 hd l h -> NoDup (hd :: l).
Proof. intros (_ & I2 & _). apply I2. left; auto. Qed.
Lemma list1_ring hd l h : list1 hd l h -> ring h hd l.
Proof. intros (I1 & _). apply (I1 hd). left; auto. Qed.
Lemma list1_step hd l h o l' : list1 hd l h -> sok [hd] (fun _ => l) o -> sstep (fun _ => l) o hd = l' ->
  exists h', lstep h o = Some h' /\ list1 hd l' h'.
Proof.
  intros LI OK E. destruct (lists_step _ _ _ _ LI OK) as (h' & E' & I'). exists h'. split; auto.
  eapply lists_inv_ext; [|exact I']. intros x [<-|[]]. auto.
Qed.
Lemma ins_before_at y n A B : ~ In y A -> ins_before y n (A ++ y :: B) = A ++ n :: y :: B.
Proof.
  induction A as [|a A IH]; cbn; intros NI; [now rewrite Z.eqb_refl|].
  destruct (Z.eqb_spec a y); [exfalso; auto|]. f_equal. auto.
Qed.
Lemma ins_after_at y n A B : ~ In y A -> ins_after y n (A ++ y :: B) = A ++ y :: n :: B.
Proof.
  induction A as [|a A IH]; cbn; intros NI; [now rewrite Z.eqb_refl|].
  destruct (Z.eqb_spec a y); [exfalso; auto|]. f_equal. auto.
Qed.
Lemma fresh1 hd l n : n <> hd -> ~ In n l -> fresh [hd] (fun _ => l) n.
Proof. intros H1 H2. split; [intros [|[]]; congruence|]. intros ? _. auto. Qed.
Lemma placed1 hd l n : In n l -> placed [hd] (fun _ => l) n.
Proof. intros H. exists hd. split; [left|]; auto. Qed.

Lemma list1_before hd A y B h n : list1 hd (A ++ y :: B) h -> n <> hd -> ~ In n (A ++ y :: B) ->
  exists h', list_add_before h y n = Some h' /\ list1 hd (A ++ n :: y :: B) h'.
Proof.
  intros LI H1 H2. apply (list1_step hd _ h (AddBefore y n) _ LI).
  - cbn [sok]. split; [apply placed1, in_or_app; right; left; auto|apply fresh1; auto].
  - cbn [sstep]. apply ins_before_at. pose proof (list1_nodup _ _ _ LI) as ND. inversion_clear ND.
    apply NoDup_remove_2 in H0. intros X; apply H0, in_or_app; auto.
Qed.
Lemma list1_after hd A y B h n : list1 hd (A ++ y :: B) h -> n <> hd -> ~ In n (A ++ y :: B) ->
  exists h', list_add_after h y n = Some h' /\ list1 hd (A ++ y :: n :: B) h'.
Proof.
  intros LI H1 H2. apply (list1_step hd _ h (AddAfter y n) _ LI).
  - cbn [sok]. split; [apply placed1, in_or_app; right; left; auto|apply fresh1; auto].
  - cbn [sstep]. apply ins_after_at. pose proof (list1_nodup _ _ _ LI) as ND. inversion_clear ND.
    apply NoDup_remove_2 in H0. intros X; apply H0, in_or_app; auto.
Qed.
Lemma list1_remove hd l h n : list1 hd l h -> In n l -> exists h', list_remove h n = Some h' /\ list1 hd (del n l) h'.
Proof. intros LI H. apply (list1_step hd _ h (ListModel.Remove n) _ LI); [apply placed1; auto|reflexivity]. Qed.

(** neighbours *)
Lemma list1_next hd A x y B h : list1 hd (A ++ x :: y :: B) h -> nx h x = Some y /\ pv h y = Some x.
Proof.
  intros LI. apply list1_ring in LI. unfold ring in LI.
  replace (hd :: (A ++ x :: y :: B) ++ [hd]) with ((hd :: A) ++ x :: (y :: B ++ [hd])) in LI by (cbn; rewrite <- app_assoc; reflexivity).
  apply linked_app in LI as [_ LI]. rewrite linked_cons in LI. tauto.
Qed.
Lemma list1_is_last hd A x B h : list1 hd (A ++ x :: B) h -> list_is_last h hd x = match B with [] => true | _ => false end.
Proof.
  intros LI. pose proof (list1_nodup _ _ _ LI) as ND. inversion_clear ND as [|? ? ND1 ND2]; rename ND2 into ND. 
  unfold list_is_last. rewrite (ring_last _ _ _ (list1_ring _ _ _ LI)). cbn [ptr_eqb].
  destruct B as [|b B] using rev_ind; [rewrite last_last; apply Z.eqb_refl|]. clear IHB.
  rewrite app_comm_cons, app_assoc, last_last.
  replace (match B ++ [b] with [] => true | _ => false end) with false by (destruct B; reflexivity).
  apply Z.eqb_neq. intros ->. apply NoDup_remove_2 in ND. apply ND. apply in_or_app; right. apply in_or_app; right; left; auto.
Qed.
Lemma list1_is_first hd A x B h : list1 hd (A ++ x :: B) h -> list_is_first h hd x = match A with [] => true | _ => false end.
Proof.
  intros LI. pose proof (list1_nodup _ _ _ LI) as ND. inversion_clear ND as [|? ? ND1 ND2]; rename ND2 into ND. 
  unfold list_is_first. rewrite (ring_first _ _ _ (list1_ring _ _ _ LI)). cbn [ptr_eqb].
  destruct A as [|a A]; cbn [app List.hd]; [apply Z.eqb_refl|].
  apply Z.eqb_neq. intros ->. cbn in ND. inversion_clear ND. apply H, in_or_app; right; left; auto.
Qed.

Lemma lpart_app c1 : forall c2, lpart (c1 ++ c2) = lpart c2 ++ lpart c1.
Proof. induction c1 as [|f c1 IH]; intros c2; cbn [app lpart]; [now rewrite app_nil_r|]. destruct f; rewrite IH; auto. now rewrite <- app_assoc. Qed.
Lemma rpart_app c1 : forall c2, rpart (c1 ++ c2) = rpart c1 ++ rpart c2.
Proof. induction c1 as [|f c1 IH]; intros c2; cbn [app rpart]; auto. destruct f; rewrite IH; auto. cbn. now rewrite <- app_assoc. Qed.

Lemma height_len t : height t <= Z.of_nat (length (inorder t)).
Proof. induction t; cbn [height inorder length]; [lia|]. rewrite app_length. cbn [length]. lia. Qed.

(** groups: a tree node followed by the further nodes of the same key *)
Definition glist (F : Z -> list Z) (l : list Z) : list Z := flat_map (fun x => x :: F x) l.
Lemma glist_app F a b : glist F (a ++ b) = glist F a ++ glist F b.
Proof. apply flat_map_app. Qed.
Lemma glist_cons F x l : glist F (x :: l) = x :: F x ++ glist F l.
Proof. reflexivity. Qed.
Lemma glist_ext F F' l : (forall x, In x l -> F' x = F x) -> glist F' l = glist F l.
Proof. induction l as [|x l IH]; intros E; auto. rewrite !glist_cons, IH, E; auto; [left; auto|]. intros; apply E; right; auto. Qed.
Lemma glist_in F l x : In x l -> In x (glist F l).
Proof. intros H. apply in_flat_map. exists x. split; auto. left; auto. Qed.
Lemma glist_inv F l x : In x (glist F l) -> exists y, In y l /\ (x = y \/ In x (F y)).
Proof. intros H. apply in_flat_map in H as (y & H1 & [E|H2]); exists y; auto. Qed.
Lemma glist_nodup F l : NoDup (glist F l) -> NoDup l.
Proof.
  induction l as [|x l IH]; intros ND; [constructor|]. rewrite glist_cons in ND. inversion_clear ND. constructor.
  - intros Hx. apply H, in_or_app; right. apply glist_in; auto.
  - apply IH. eapply NoDup_app_r; eauto.
Qed.
Lemma glist_len F l : (length l <= length (glist F l))%nat.
Proof. induction l as [|x l IH]; cbn; [lia|]. rewrite app_length. fold (glist F l). lia. Qed.

Section Avl.
Context {K : Type} (P : K -> Prop) (comp : K -> K -> Z) (key : Z -> K) (dups : bool) (head : Z).
Hypothesis GC : good_comp P comp.

Lemma gc_refl a : P a -> comp a a = 0. Proof. apply GC. Qed.
Lemma gc_anti a b : P a -> P b -> (comp a b < 0 <-> comp b a > 0). Proof. apply GC. Qed.
Lemma gc_sym0 a b : P a -> P b -> comp a b = 0 -> comp b a = 0.
Proof. intros Pa Pb E. pose proof (gc_anti a b Pa Pb). pose proof (gc_anti b a Pb Pa). lia. Qed.
Lemma gc_trans a b c : P a -> P b -> P c -> comp a b <= 0 -> comp b c <= 0 -> comp a c <= 0 /\ (comp a b < 0 \/ comp b c < 0 -> comp a c < 0).
Proof. destruct GC as (_ & _ & TR). intros. apply (TR a b c); auto. Qed.
Lemma gc_congr k a b : P k -> P a -> P b -> comp a b = 0 -> 
  (comp k a < 0 <-> comp k b < 0) /\ (comp k a > 0 <-> comp k b > 0) /\ (comp k a = 0 <-> comp k b = 0).
Proof.
  intros Pk Pa Pb E. pose proof (gc_sym0 a b Pa Pb E) as E'.
  assert (F : forall a b, P a -> P b -> comp a b = 0 -> comp b a = 0 -> (comp k a < 0 -> comp k b < 0) /\ (comp k a > 0 -> comp k b > 0)).
  { clear a b Pa Pb E E'. intros a b Pa Pb E E'. split; intros H.
    - apply (gc_trans k a b); auto; lia.
    - apply gc_anti; auto. apply gc_anti in H; auto. apply (gc_trans b a k); auto; lia. }
  destruct (F a b Pa Pb E E'), (F b a Pb Pa E' E). lia.
Qed.
Lemma gc_lt_gt k a b : P k -> P a -> P b -> comp k a <= 0 -> comp a b < 0 -> comp k b < 0.
Proof. intros. apply (gc_trans k a b); auto; lia. Qed.
Lemma gc_gt_lt k a b : P k -> P a -> P b -> comp k a >= 0 -> comp b a < 0 -> comp k b > 0.
Proof.
  intros Pk Pa Pb H1 H2. apply gc_anti; auto. apply (gc_trans b a k); auto; [lia|].
  pose proof (gc_anti a k Pa Pk). pose proof (gc_anti k a Pk Pa). lia.
Qed.

Definition klt (x y : Z) : Prop := comp (key x) (key y) < 0.

Lemma ss_app (R : Z -> Z -> Prop) A B : StronglySorted R (A ++ B) <-> StronglySorted R A /\ StronglySorted R B /\ (forall a b, In a A -> In b B -> R a b).
Proof.
  induction A as [|x A IH]; cbn [app].
  - split; [intros H; repeat split; auto; [constructor|intros a b []]|tauto].
  - split.
    + intros H. inversion_clear H. apply IH in H0 as (H2 & H3 & H4). rewrite Forall_forall in H1. split; [|split; auto].
      * constructor; auto. apply Forall_forall. intros; apply H1, in_or_app; auto.
      * intros a b [->|Ha] Hb; auto. apply H1, in_or_app; auto.
    + intros (H1 & H2 & H3). inversion_clear H1. constructor.
      * apply IH. split; auto. split; auto. intros; apply H3; auto. right; auto.
      * apply Forall_forall. intros y Hy. apply in_app_or in Hy as [Hy|Hy]; [rewrite Forall_forall in H0; auto|apply H3; auto; left; auto].
Qed.

(** search *)
Lemma find_rec_ok h k : P k -> forall t fuel p x, rep h t p -> rootp t = Some x -> height t <= Z.of_nat fuel ->
  (forall z, In z (inorder t) -> P (key z)) -> StronglySorted klt (inorder t) ->
  exists c l y b r, t = plug c (N l y b r) /\ avl_find_rec comp key fuel h x k = Some (y, comp k (key y)) /\
    (comp k (key y) < 0 -> l = L) /\ (comp k (key y) > 0 -> r = L) /\
    (forall z, In z (lpart c ++ inorder l) -> comp k (key z) > 0) /\ (forall z, In z (inorder r ++ rpart c) -> comp k (key z) < 0).
Proof.
  intros Pk. induction t as [|l IHl x b r IHr]; intros fuel p y R E HF PK SS; [discriminate|]. injection E as <-.
  pose proof (height_nonneg l). pose proof (height_nonneg r).
  destruct fuel as [|f]; [cbn [height] in HF; lia|]. cbn [avl_find_rec].
  cbn [rep] in R. destruct R as (_ & EL & ER & _ & Rl & Rr). cbn [height] in HF. cbn [inorder] in SS, PK.
  apply ss_app in SS as (SL & SR & SLR). inversion_clear SR as [|? ? SR' SX]. rewrite Forall_forall in SX.
  assert (Px : P (key x)) by (apply PK, in_or_app; right; left; auto).
  assert (HL : forall z, In z (inorder l) -> klt z x) by (intros; apply SLR; auto; left; auto).
  assert (Pl : forall z, In z (inorder l) -> P (key z)) by (intros; apply PK, in_or_app; auto).
  assert (Pr : forall z, In z (inorder r) -> P (key z)) by (intros; apply PK, in_or_app; right; right; auto).
  destruct (Z.ltb_spec (comp k (key x)) 0) as [LT|GE].
  - rewrite EL. assert (GT : forall z, In z (x :: inorder r) -> comp k (key z) < 0).
    { intros z [<-|Hz]; auto. apply (gc_lt_gt k (key x) (key z)); auto; [lia|]. apply SX; auto. }
    destruct l as [|l1 z zb l2]; cbn [rootp].
    + exists [], L, x, b, r. split; [reflexivity|]; split; [reflexivity|]; split; [intros; try reflexivity; lia|]; split; [intros; try reflexivity; lia|]. cbn. split; [intros z []|]. rewrite app_nil_r. intros z Hz; apply GT; right; auto.
    + destruct (IHl f (Some x) z Rl eq_refl ltac:(lia) Pl SL) as (c & l' & y & b' & r' & E1 & E2 & E3 & E4 & E5 & E6).
      exists (c ++ [FL x b r]), l', y, b', r'. rewrite plug_app, <- E1. cbn [plug plug1]. split; [reflexivity|]; split; [assumption|]; split; [assumption|]; split; [assumption|].
      rewrite lpart_app, rpart_app. cbn [lpart rpart app]. split; [auto|].
      intros w Hw. rewrite app_assoc in Hw. apply in_app_or in Hw as [Hw|Hw]; auto. apply GT. rewrite app_nil_r in Hw. exact Hw.
  - assert (LTl : forall z, In z (inorder l) -> comp k (key z) > 0).
    { intros z Hz. apply (gc_gt_lt k (key x) (key z)); auto; [lia|]. apply HL; auto. }
    rewrite Z.gtb_ltb. destruct (Z.ltb_spec 0 (comp k (key x))) as [GT|LE].
    + rewrite ER. destruct r as [|r1 z zb r2]; cbn [rootp].
      * exists [], l, x, b, L. split; [reflexivity|]; split; [reflexivity|]; split; [intros; try reflexivity; lia|]; split; [intros; try reflexivity; lia|]. cbn. split; [auto|intros z []].
      * destruct (IHr f (Some x) z Rr eq_refl ltac:(lia) Pr SR') as (c & l' & y & b' & r' & E1 & E2 & E3 & E4 & E5 & E6).
        exists (c ++ [FR l x b]), l', y, b', r'. rewrite plug_app, <- E1. cbn [plug plug1]. split; [reflexivity|]; split; [assumption|]; split; [assumption|]; split; [assumption|].
        rewrite lpart_app, rpart_app. cbn [lpart rpart app]. rewrite app_nil_r. split; [|auto].
        intros w Hw. rewrite <- app_assoc in Hw. apply in_app_or in Hw as [Hw|Hw]; auto.
        apply in_app_or in Hw as [Hw|[<-|[]]]; auto. lia.
    + assert (E0 : comp k (key x) = 0) by lia. exists [], l, x, b, r. split; [reflexivity|]; split; [reflexivity|]; split; [intros; try reflexivity; lia|]; split; [intros; try reflexivity; lia|]. cbn. rewrite app_nil_r. split; auto.
      intros z Hz. apply (gc_lt_gt k (key x) (key z)); [auto|auto|auto|lia|apply SX; auto].
Qed.

Record ainv (T : tree) (F : Z -> list Z) (h : aheap) (l : list Z) : Prop := {
  iv_tree : holds h T;
  iv_bal : balanced T;
  iv_list : list1 head l (ls h);
  iv_eq : l = glist F (inorder T);
  iv_fol1 : forall x, In x (inorder T) -> fol h x = false;
  iv_fol2 : forall x y, In x (inorder T) -> In y (F x) -> fol h y = true /\ comp (key y) (key x) = 0;
  iv_P : forall x, In x l -> P (key x);
  iv_sorted : StronglySorted klt (inorder T);
  iv_dups : dups = false -> forall x, In x (inorder T) -> F x = [];
  iv_cnt : cnt h = u32 (zlen l)
}.

Lemma iv_nodup T F h l : ainv T F h l -> NoDup l /\ ~ In head l.
Proof. intros I. pose proof (list1_nodup _ _ _ (iv_list _ _ _ _ I)) as ND. inversion_clear ND. auto. Qed.
Lemma iv_nodupT T F h l : ainv T F h l -> NoDup (inorder T).
Proof. intros I. destruct (iv_nodup _ _ _ _ I) as [ND _]. rewrite (iv_eq _ _ _ _ I) in ND. eapply glist_nodup; eauto. Qed.
Lemma iv_inT T F h l x : ainv T F h l -> In x (inorder T) -> In x l.
Proof. intros I Hx. rewrite (iv_eq _ _ _ _ I). apply glist_in; auto. Qed.

(** position of a key *)
Lemma find_pos T F h l k : ainv T F h l -> P k -> T <> L ->
  exists c tl y b tr x0, root h = Some x0 /\ T = plug c (N tl y b tr) /\
    (forall fuel, height T <= Z.of_nat fuel -> avl_find_rec comp key fuel h x0 k = Some (y, comp k (key y))) /\
    (comp k (key y) < 0 -> tl = L) /\ (comp k (key y) > 0 -> tr = L) /\
    l = glist F (lpart c ++ inorder tl) ++ y :: F y ++ glist F (inorder tr ++ rpart c) /\
    (forall z, In z (glist F (lpart c ++ inorder tl)) -> comp k (key z) > 0) /\
    (forall z, In z (glist F (inorder tr ++ rpart c)) -> comp k (key z) < 0) /\
    (forall z, In z (F y) -> comp (key z) (key y) = 0) /\
    (forall z, In z (F y) -> fol h z = true) /\ 
    (match glist F (inorder tr ++ rpart c) with [] => True | z :: _ => fol h z = false end).
Proof.
  intros I Pk NT. destruct (rootp T) as [x0|] eqn:RT; [|destruct T; [congruence|discriminate]].
  pose proof (iv_tree _ _ _ _ I) as [HR HT].
  assert (PT : forall z, In z (inorder T) -> P (key z)) by (intros z Hz; eapply iv_P; eauto; eapply iv_inT; eauto).
  destruct (find_rec_ok h k Pk T (Z.to_nat (height T)) None x0 HT RT ltac:(pose proof (height_nonneg T); lia) PT (iv_sorted _ _ _ _ I))
    as (c & tl & y & b & tr & E1 & E2 & E3 & E4 & E5 & E6).
  exists c, tl, y, b, tr, x0. split; [congruence|]. split; [auto|].
  assert (INO : inorder T = (lpart c ++ inorder tl) ++ y :: (inorder tr ++ rpart c)).
  { rewrite E1, inorder_plug. cbn [inorder]. rewrite <- !app_assoc. reflexivity. }
  split.
  { intros fuel HF. destruct (find_rec_ok h k Pk T fuel None x0 HT RT HF PT (iv_sorted _ _ _ _ I))
      as (c' & tl' & y' & b' & tr' & E1' & E2' & E3' & E4' & E5' & E6').
    assert (y' = y); [|subst; auto].
    assert (MONO : forall f g x r, (f <= g)%nat -> avl_find_rec comp key f h x k = Some r -> avl_find_rec comp key g h x k = Some r).
    { clear. induction f as [|f IH]; intros g x r LE E; [discriminate|]. destruct g as [|g]; [lia|]. cbn [avl_find_rec] in *.
      destruct (_ <? _); [destruct (lft h x); auto; apply IH; auto; lia|]. destruct (_ >? _); [destruct (rgt h x); auto; apply IH; auto; lia|auto]. }
    apply (MONO _ fuel) in E2; [congruence|lia]. }
  split; [auto|]. split; [auto|].
  assert (IY : In y (inorder T)) by (rewrite INO; apply in_or_app; right; left; auto).
  split.
  { rewrite (iv_eq _ _ _ _ I), INO, glist_app, glist_cons. reflexivity. }
  assert (FOLL : forall S, (forall z, In z S -> In z (inorder T)) -> forall z, In z (glist F S) -> exists w, In w S /\ P (key w) /\ P (key z) /\ comp (key z) (key w) = 0).
  { intros S HS z Hz. assert (In z l).
    { rewrite (iv_eq _ _ _ _ I). apply glist_inv in Hz as (w & Hw & D). apply in_flat_map. exists w. split; auto. destruct D; [left|right]; auto. }
    apply glist_inv in Hz as (w & Hw & D). exists w. split; auto. assert (P (key w)) by auto. split; auto.
    split; [eapply iv_P; eauto|]. destruct D as [->|D]; [apply gc_refl; auto|]. eapply iv_fol2; eauto. }
  assert (SA : forall z, In z (lpart c ++ inorder tl) -> In z (inorder T)) by (intros z Hz; rewrite INO; apply in_or_app; auto).
  assert (SB : forall z, In z (inorder tr ++ rpart c) -> In z (inorder T)) by (intros z Hz; rewrite INO; apply in_or_app; right; right; auto).
  split; [|split; [|split; [|split]]].
  - intros z Hz. destruct (FOLL _ SA z Hz) as (w & Hw & Pw & Pz & EW).
    apply (gc_congr k (key z) (key w)); auto.
  - intros z Hz. destruct (FOLL _ SB z Hz) as (w & Hw & Pw & Pz & EW).
    apply (gc_congr k (key z) (key w)); auto.
  - intros z Hz. eapply iv_fol2; eauto.
  - intros z Hz. eapply iv_fol2; eauto.
  - destruct (inorder tr ++ rpart c) as [|z q] eqn:EQ; cbn; auto. eapply iv_fol1; eauto. rewrite INO. apply in_or_app; right; right; left; auto.
Qed.

(** seq_insert on the three zones *)
Lemma seq_insert_skip n A l : (forall z, In z A -> comp (key n) (key z) > 0) ->
  seq_insert comp key dups n (A ++ l) = option_map (app A) (seq_insert comp key dups n l).
Proof.
  induction A as [|a A IH]; intros H; cbn [app seq_insert].
  - destruct (seq_insert _ _ _ n l); reflexivity.
  - assert (comp (key n) (key a) > 0) by (apply H; left; auto). destruct (Z.ltb_spec (comp (key n) (key a)) 0); [lia|].
    destruct (Z.eqb_spec (comp (key n) (key a)) 0); [lia|]. rewrite IH by (intros; apply H; right; auto).
    destruct (seq_insert _ _ _ n l); reflexivity.
Qed.
Lemma seq_insert_front n l : (forall z, In z l -> comp (key n) (key z) < 0) -> seq_insert comp key dups n l = Some (n :: l).
Proof.
  destruct l as [|a l]; intros H; cbn [seq_insert]; auto. assert (comp (key n) (key a) < 0) by (apply H; left; auto).
  destruct (Z.ltb_spec (comp (key n) (key a)) 0); [auto|lia].
Qed.

(** heaps that differ only in list members, followers and counter *)
Lemma at_ctx_ext h h' c t : par h' = par h -> lft h' = lft h -> rgt h' = rgt h -> bal h' = bal h -> root h' = root h ->
  at_ctx h c t -> at_ctx h' c t.
Proof.
  intros E1 E2 E3 E4 E5 (R & RC & ND). split; [|split; [|auto]].
  - eapply rep_agree; [|exact R]. intros y _. rewrite E1, E2, E3, E4. auto.
  - eapply repc_agree; [| |exact RC]; [auto|]. intros y _. rewrite E1, E2, E3, E4. auto.
Qed.
Lemma at_ctx_agree h h' c t : agree (inorder t ++ cnodes c) h h' -> root h' = root h -> at_ctx h c t -> at_ctx h' c t.
Proof.
  intros AG E (R & RC & ND). split; [|split; [|auto]].
  - eapply rep_agree; [|exact R]. intros y Hy. apply AG, in_or_app; auto.
  - eapply repc_agree; [| |exact RC]; [auto|]. intros y Hy. apply AG, in_or_app; auto.
Qed.

Lemma attach_left h c y b r new v : at_ctx h c (N L y b r) -> ~ In new (inorder (N L y b r) ++ cnodes c) -> -128 <= v < 128 ->
  par h new = Some y -> lft h new = None -> rgt h new = None -> bal h new = 0 ->
  at_ctx (set_lft (set_bal h y v) y (Some new)) c (N (N L new 0 L) y v r) /\ same_rest h (set_lft (set_bal h y v) y (Some new)).
Proof.
  intros A NI HV E1 E2 E3 E4. destruct (set_bal_at h c L y b r v A HV) as (A1 & BX & S1).
  assert (NY : new <> y) by (intros ->; apply NI, in_or_app; left; left; auto).
  assert (E5 : bal (set_bal h y v) new = 0) by (cbn; rewrite upd_other; auto).
  assert (E6 : par (set_bal h y v) new = Some y) by auto. assert (E7 : lft (set_bal h y v) new = None) by auto. assert (E8 : rgt (set_bal h y v) new = None) by auto.
  split; [|destruct S1 as (?&?&?); repeat split; assumption].
  set (h1 := set_bal h y v) in *. clearbody h1. destruct A1 as (R & RC & ND). assert (HN := proj1 (nodup_cn _) ND).
  cbn [rep rootp] in R. destruct R as (R1 & R2 & R3 & R4 & R5 & R6).
  assert (AG : forall z, z <> y -> par (set_lft h1 y (Some new)) z = par h1 z /\ lft (set_lft h1 y (Some new)) z = lft h1 z /\ rgt (set_lft h1 y (Some new)) z = rgt h1 z /\ bal (set_lft h1 y (Some new)) z = bal h1 z).
  { intros z Hz. cbn. repeat split; auto. apply upd_other; auto. }
  split; [|split].
  - cbn [rep rootp]. destruct (AG new NY) as (-> & -> & -> & ->). cbn [set_lft par lft rgt bal]. rewrite upd_same.
    split; [auto|]. split; [auto|]. split; [auto|]. split; [auto|]. split; [auto 10|].
    eapply rep_agree; [|exact R6]. intros z Hz. apply AG. intros ->. dis HN y.
  - cbn [rootp]. eapply repc_agree; [| |exact RC]; [reflexivity|]. intros z Hz. apply AG. intros ->. dis HN y.
  - cbn [inorder app] in *. constructor; auto.
Qed.
Lemma attach_right h c l y b new v : at_ctx h c (N l y b L) -> ~ In new (inorder (N l y b L) ++ cnodes c) -> -128 <= v < 128 ->
  par h new = Some y -> lft h new = None -> rgt h new = None -> bal h new = 0 ->
  at_ctx (set_rgt (set_bal h y v) y (Some new)) c (N l y v (N L new 0 L)) /\ same_rest h (set_rgt (set_bal h y v) y (Some new)).
Proof.
  intros A NI HV E1 E2 E3 E4. destruct (set_bal_at h c l y b L v A HV) as (A1 & BX & S1).
  assert (NY : new <> y) by (intros ->; apply NI; cbn; apply in_or_app; left; apply in_or_app; right; left; auto).
  assert (E5 : bal (set_bal h y v) new = 0) by (cbn; rewrite upd_other; auto).
  assert (E6 : par (set_bal h y v) new = Some y) by auto. assert (E7 : lft (set_bal h y v) new = None) by auto. assert (E8 : rgt (set_bal h y v) new = None) by auto.
  split; [|destruct S1 as (?&?&?); repeat split; assumption].
  set (h1 := set_bal h y v) in *. clearbody h1. destruct A1 as (R & RC & ND). assert (HN := proj1 (nodup_cn _) ND).
  cbn [rep rootp] in R. destruct R as (R1 & R2 & R3 & R4 & R5 & R6).
  assert (AG : forall z, z <> y -> par (set_rgt h1 y (Some new)) z = par h1 z /\ lft (set_rgt h1 y (Some new)) z = lft h1 z /\ rgt (set_rgt h1 y (Some new)) z = rgt h1 z /\ bal (set_rgt h1 y (Some new)) z = bal h1 z).
  { intros z Hz. cbn. repeat split; auto. apply upd_other; auto. }
  split; [|split].
  - cbn [rep rootp]. destruct (AG new NY) as (-> & -> & -> & ->). cbn [set_rgt par lft rgt bal]. rewrite upd_same.
    split; [auto|]. split; [auto|]. split; [auto|]. split; [auto|]. split; [|auto 10].
    eapply rep_agree; [|exact R5]. intros z Hz. apply AG. intros ->. dis HN y.
  - cbn [rootp]. eapply repc_agree; [| |exact RC]; [reflexivity|]. intros z Hz. apply AG. intros ->. dis HN y.
  - apply (Permutation_NoDup (l := new :: ((inorder l ++ [y]) ++ cnodes c))); [|constructor; auto].
    cbn [inorder app]. rewrite Permutation_middle. rewrite <- !app_assoc. reflexivity.
Qed.

(** the last node of a group *)
Lemma find_last_ok fuel h : forall G pre e post, list1 head (pre ++ e :: G ++ post) (ls h) ->
  (forall z, In z G -> fol h z = true) -> (match post with [] => True | z :: _ => fol h z = false end) -> (length G < fuel)%nat ->
  avl_find_last head fuel h e = Some (last G e).
Proof.
  induction fuel as [|f IH]; intros G pre e post LI HG HP LF; [lia|]. cbn [avl_find_last].
  rewrite (list1_is_last _ _ _ _ _ LI). destruct G as [|g G]; cbn [app] in *.
  - destruct post as [|z post]; auto. destruct (list1_next _ _ _ _ _ _ LI) as [-> _]. rewrite HP. reflexivity.
  - destruct (list1_next _ _ _ _ _ _ LI) as [-> _]. rewrite (HG g) by (left; auto).
    rewrite (IH G (pre ++ [e]) g post); auto.
    + destruct G; auto. cbn [last]. f_equal. clear. revert z. induction G as [|a G IH]; intros z; auto. cbn [last]. destruct G; auto.
    + rewrite <- app_assoc. exact LI.
    + intros; apply HG; right; auto.
    + cbn in LF. lia.
Qed.

Definition fresh_node h new :=
  set_fol (set_bal (set_rgt (set_lft (set_par h new None) new None) new None) new 0) new false.
Lemma fresh_node_inv T F h l new : ainv T F h l -> ~ In new l -> ainv T F (fresh_node h new) l.
Proof.
  intros I NI. pose proof (iv_tree _ _ _ _ I) as HT.
  assert (NT : ~ In new (inorder T)) by (intros X; apply NI; eapply iv_inT; eauto).
  constructor.
  - assert (A : at_ctx (fresh_node h new) [] T).
    { apply (at_ctx_agree h).
      - intros y Hy. cbn [cnodes] in Hy. rewrite app_nil_r in Hy. assert (y <> new) by (intros ->; auto).
        cbn. rewrite !upd_other by auto. auto.
      - reflexivity.
      - apply at_ctx_holds. cbn [plug]. split; auto. eapply iv_nodupT; eauto. }
    apply at_ctx_holds in A. apply A.
  - apply I.
  - apply (iv_list _ _ _ _ I).
  - apply I.
  - intros x Hx. cbn. rewrite upd_other by (intros ->; auto). eapply iv_fol1; eauto.
  - intros x y Hx Hy. cbn. rewrite upd_other; [eapply iv_fol2; eauto|]. intros ->. apply NI. rewrite (iv_eq _ _ _ _ I).
    apply in_flat_map. exists x. split; auto. right; auto.
  - apply I.
  - apply I.
  - apply I.
  - apply (iv_cnt _ _ _ _ I).
Qed.

Lemma u32_succ n : u32 (u32 n + 1) = u32 (n + 1).
Proof. unfold u32. rewrite Zplus_mod_idemp_l. reflexivity. Qed.
Lemma u32_pred n : u32 (u32 n - 1) = u32 (n - 1).
Proof. unfold u32. rewrite Zminus_mod_idemp_l. reflexivity. Qed.
Lemma zlen_mid (A B : list Z) x : zlen (A ++ x :: B) = zlen (A ++ B) + 1.
Proof. unfold zlen. rewrite !app_length. cbn [length]. lia. Qed.

(** a new tree node at its place in the order *)
Lemma ainv_add T F h l T' h' A B new : ainv T F h l -> ~ In new l -> new <> head -> P (key new) ->
  inorder T = A ++ B -> fol h new = false ->
  (forall z, In z A -> comp (key new) (key z) > 0) -> (forall z, In z B -> comp (key new) (key z) < 0) ->
  holds h' T' -> balanced T' -> inorder T' = A ++ new :: B ->
  list1 head (glist F A ++ new :: glist F B) (ls h') -> fol h' = fol h -> cnt h' = u32 (cnt h + 1) ->
  ainv T' (upd F new []) h' (glist F A ++ new :: glist F B).
Proof.
  intros I NI NH PN EI FN HA HB HT HBal EI' LI FO CN.
  assert (NT : forall x, In x (inorder T) -> x <> new) by (intros x X ->; apply NI; eapply iv_inT; eauto).
  assert (OLD : forall x, In x (inorder T') -> x = new \/ In x (inorder T)).
  { intros x. rewrite EI', EI, !in_app_iff. cbn. intuition auto. }
  assert (EL : l = glist F A ++ glist F B) by (rewrite (iv_eq _ _ _ _ I), EI; apply glist_app).
  constructor; auto.
  - rewrite EI', glist_app, glist_cons, upd_same. cbn [app].
    rewrite !(glist_ext F (upd F new [])); auto; intros x Hx; apply upd_other, NT; rewrite EI; apply in_or_app; auto.
  - intros x Hx. rewrite FO. destruct (OLD x Hx) as [->|]; auto. eapply iv_fol1; eauto.
  - intros x y Hx Hy. rewrite FO. destruct (OLD x Hx) as [->|Hx']; [rewrite upd_same in Hy; destruct Hy|].
    rewrite upd_other in Hy by auto. eapply iv_fol2; eauto.
  - intros x Hx. apply in_app_or in Hx as [Hx|[<-|Hx]]; auto; eapply iv_P; eauto; rewrite EL; apply in_or_app; auto.
  - rewrite EI'. pose proof (iv_sorted _ _ _ _ I) as SS. rewrite EI in SS. apply ss_app in SS as (S1 & S2 & S3). apply ss_app.
    assert (PT : forall z, In z (A ++ B) -> P (key z)) by (intros z Hz; eapply iv_P; eauto; eapply iv_inT; eauto; rewrite EI; auto).
    split; [auto|]. split.
    + constructor; auto. apply Forall_forall. intros z Hz. apply HB; auto.
    + intros a b Ha [<-|Hb]; auto. unfold klt. apply (gc_anti (key a) (key new)); [apply PT, in_or_app; auto|auto|apply HA; auto].
  - intros D x Hx. destruct (OLD x Hx) as [->|]; [apply upd_same|]. rewrite upd_other by auto. eapply iv_dups; eauto.
  - rewrite CN, (iv_cnt _ _ _ _ I), u32_succ. f_equal. rewrite zlen_mid, EL. reflexivity.
Qed.

Lemma insert_ok T F h l fuel new : ainv T F h l -> new <> head -> ~ In new l -> P (key new) -> (S (length l) < fuel)%nat ->
  match seq_insert comp key dups new l with
  | Some l' => exists h' T' F', avl_insert comp key dups head fuel h new = Some (h', 0) /\ ainv T' F' h' l'
  | None => exists h', avl_insert comp key dups head fuel h new = Some (h', -1) /\ ainv T F h' l
  end.
Proof.
  intros I0 NH NI PN HF. pose proof (fresh_node_inv T F h l new I0 NI) as I. unfold avl_insert. cbv zeta.
  change (set_fol (set_bal (set_rgt (set_lft (set_par h new None) new None) new None) new 0) new false) with (fresh_node h new).
  assert (N1 : par (fresh_node h new) new = None /\ lft (fresh_node h new) new = None /\ rgt (fresh_node h new) new = None /\
               bal (fresh_node h new) new = 0 /\ fol (fresh_node h new) new = false) by (cbn; rewrite !upd_same; auto).
  set (h0 := fresh_node h new) in *. clearbody h0. clear I0 h. rename h0 into h. destruct N1 as (N1 & N2 & N3 & N4 & N5).
  pose proof (iv_tree _ _ _ _ I) as [HR HT].
  assert (NT : ~ In new (inorder T)) by (intros X; apply NI; eapply iv_inT; eauto).
  destruct (rootp T) as [r0|] eqn:RT.
  2:{ (* empty *)
    rewrite HR. assert (T = L) by (destruct T; [auto|discriminate]). subst T.
    assert (EL : l = []) by (rewrite (iv_eq _ _ _ _ I); reflexivity). subst l. cbn [seq_insert].
    destruct (list1_step head [] (ls h) (AddHead head new) [new] (iv_list _ _ _ _ I)) as (l1 & E1 & LI).
    { cbn. split; [left; auto|apply fresh1; auto]. } { cbn. unfold upd. now rewrite Z.eqb_refl. }
    cbn [lstep] in E1. rewrite E1. eexists. exists (N L new 0 L), (upd F new []). split; [reflexivity|].
    apply (ainv_add L F h [] (N L new 0 L) _ [] [] new); auto.
    - intros z [].
    - intros z [].
    - split; [reflexivity|]. cbn. auto 10.
    - cbn. lia.
    - cbn. rewrite (iv_cnt _ _ _ _ I). reflexivity. }
  assert (TL : T <> L) by (intros ->; discriminate).
  destruct (find_pos T F h l (key new) I PN TL) as (c & tl & y & b & tr & x0 & EX & ET & FR' & DL & DR & EL & HA & HB & FE & FT & FN).
  rewrite EX. 
  assert (LT : (length (inorder T) <= length l)%nat) by (rewrite (iv_eq _ _ _ _ I); apply glist_len).
  rewrite FR' by (pose proof (height_len T); lia). cbn [fst].
  assert (AT : at_ctx h c (N tl y b tr)) by (apply at_ctx_holds; rewrite <- ET; split; [split; congruence|eapply iv_nodupT; eauto]).
  pose proof (iv_bal _ _ _ _ I) as BT. rewrite ET in BT. apply balanced_plug in BT as [BY CO].
  assert (IT : inorder T = (lpart c ++ inorder tl) ++ y :: inorder tr ++ rpart c).
  { rewrite ET, inorder_plug. cbn [inorder]. rewrite <- !app_assoc. reflexivity. }
  assert (PY : P (key y)) by (eapply iv_P; eauto; eapply iv_inT; eauto; rewrite IT; apply in_or_app; right; left; auto).
  assert (PF : forall z, In z (F y) -> P (key z)).
  { intros z Hz. eapply iv_P; eauto. rewrite EL. apply in_or_app; right; right. apply in_or_app; auto. }
  pose proof (ctx_len c (N tl y b tr)) as CLN. rewrite <- ET in CLN. cbn [inorder] in CLN. rewrite app_length in CLN. cbn [length] in CLN.
  assert (NI2 : ~ In new (inorder (N tl y b tr) ++ cnodes c)).
  { intros X. apply NT. rewrite ET. eapply Permutation_in; [symmetry; apply perm_plug|exact X]. }
  set (gA := glist F (lpart c ++ inorder tl)) in *. set (gB := glist F (inorder tr ++ rpart c)) in *.
  assert (SI : seq_insert comp key dups new l = option_map (app gA) (seq_insert comp key dups new (y :: F y ++ gB))) by (rewrite EL; apply seq_insert_skip; auto).
  rewrite SI. clear SI. cbn [seq_insert].
  assert (LEN : length l = (length gA + S (length (F y) + length gB))%nat) by (rewrite EL, app_length; cbn [length]; rewrite app_length; auto).
  set (d := comp (key new) (key y)) in *.
  (* pieces of the two insertion positions *)
  assert (LEFT : d < 0 -> exists h1, 
       avl_insert_before (set_par h new (Some y)) y new = Some h1 /\ list1 head (gA ++ new :: y :: F y ++ gB) (ls h1) /\
       fol h1 = fol h /\ cnt h1 = u32 (cnt h + 1) /\ at_ctx h1 c (N tl y b tr) /\
       par h1 new = Some y /\ lft h1 new = None /\ rgt h1 new = None /\ bal h1 new = 0 /\ bal h1 y = b).
  { intros D. unfold avl_insert_before. cbn [ls set_par]. pose proof (iv_list _ _ _ _ I) as LI. rewrite EL in LI.
    destruct (list1_before _ _ _ _ _ new LI NH) as (l1 & -> & LI1); [rewrite <- EL; auto|].
    eexists; split; [reflexivity|]. split; [exact LI1|]. split; [reflexivity|]. split; [reflexivity|].
    split; [|cbn; rewrite upd_same; split; [auto|]; split; [auto|]; split; [auto|]; split; [auto|]; apply (at_bal _ _ _ _ _ _ AT)].
    apply (at_ctx_agree h); auto. intros z Hz. cbn. rewrite upd_other by (intros ->; auto). auto. }
  assert (RIGHT : d > 0 -> avl_find_last head fuel (set_par h new (Some y)) y = Some (last (F y) y) /\ exists h1,
       avl_insert_after (set_par h new (Some y)) (last (F y) y) new = Some h1 /\ list1 head ((gA ++ y :: F y) ++ new :: gB) (ls h1) /\
       fol h1 = fol h /\ cnt h1 = u32 (cnt h + 1) /\ at_ctx h1 c (N tl y b tr) /\
       par h1 new = Some y /\ lft h1 new = None /\ rgt h1 new = None /\ bal h1 new = 0 /\ bal h1 y = b).
  { intros D. pose proof (iv_list _ _ _ _ I) as LI. rewrite EL in LI. split.
    { apply (find_last_ok fuel _ (F y) gA y gB); auto. lia. }
    unfold avl_insert_after. cbn [ls set_par].
    assert (SPL : exists pre, gA ++ y :: F y = pre ++ [last (F y) y]).
    { clearbody gA. destruct (F y) as [|q Q _] using rev_ind; [exists gA; reflexivity|]. exists (gA ++ y :: Q). rewrite last_last, <- app_assoc. reflexivity. }
    destruct SPL as [pre SPL].
    assert (LI' : list1 head (pre ++ last (F y) y :: gB) (ls h)).
    { replace (pre ++ last (F y) y :: gB) with ((pre ++ [last (F y) y]) ++ gB) by (rewrite <- app_assoc; reflexivity). rewrite <- SPL, <- app_assoc. exact LI. }
    destruct (list1_after _ _ _ _ _ new LI' NH) as (l1 & -> & LI1).
    { replace (pre ++ last (F y) y :: gB) with ((pre ++ [last (F y) y]) ++ gB) by (rewrite <- app_assoc; reflexivity). rewrite <- SPL, <- app_assoc. cbn [app]. rewrite <- EL. auto. }
    eexists; split; [reflexivity|]. split.
    { cbn [ls set_ls set_cnt]. rewrite SPL, <- app_assoc. exact LI1. }
    split; [reflexivity|]. split; [reflexivity|].
    split; [|cbn; rewrite upd_same; split; [auto|]; split; [auto|]; split; [auto|]; split; [auto|]; apply (at_bal _ _ _ _ _ _ AT)].
    apply (at_ctx_agree h); auto. intros z Hz. cbn. rewrite upd_other by (intros ->; auto). auto. }
  (* the two final steps *)
  assert (FINL : forall h1 h2 T', d < 0 -> list1 head (gA ++ new :: y :: F y ++ gB) (ls h1) -> fol h1 = fol h -> cnt h1 = u32 (cnt h + 1) ->
      same_rest h1 h2 -> holds h2 T' -> balanced T' -> inorder T' = (lpart c ++ inorder tl) ++ new :: y :: inorder tr ++ rpart c ->
      ainv T' (upd F new []) h2 (gA ++ new :: y :: F y ++ gB)).
  { intros h1 h2 T' D LI1 FO CN (S1 & S2 & S3) HT' BT' IT'.
    change (gA ++ new :: y :: F y ++ gB) with (glist F (lpart c ++ inorder tl) ++ new :: glist F (y :: inorder tr ++ rpart c)).
    apply (ainv_add T F h l T' h2 (lpart c ++ inorder tl) (y :: inorder tr ++ rpart c) new); auto; try congruence.
    - intros z Hz. apply HA. apply glist_in; auto.
    - intros z [<-|Hz]; auto. apply HB, glist_in; auto.
    - cbn. fold gA. rewrite S1. exact LI1. }
  assert (FINR : forall h1 h2 T', d > 0 -> list1 head ((gA ++ y :: F y) ++ new :: gB) (ls h1) -> fol h1 = fol h -> cnt h1 = u32 (cnt h + 1) ->
      same_rest h1 h2 -> holds h2 T' -> balanced T' -> inorder T' = ((lpart c ++ inorder tl) ++ [y]) ++ new :: inorder tr ++ rpart c ->
      ainv T' (upd F new []) h2 ((gA ++ y :: F y) ++ new :: gB)).
  { intros h1 h2 T' D LI1 FO CN (S1 & S2 & S3) HT' BT' IT'.
    assert (EG : glist F ((lpart c ++ inorder tl) ++ [y]) = gA ++ y :: F y).
    { rewrite glist_app, glist_cons. cbn. rewrite app_nil_r. reflexivity. }
    rewrite <- EG in LI1 |- *.
    apply (ainv_add T F h l T' h2 ((lpart c ++ inorder tl) ++ [y]) (inorder tr ++ rpart c) new); auto; try congruence.
    - rewrite IT, <- (app_assoc _ [y]). reflexivity.
    - intros z Hz. apply in_app_or in Hz as [Hz|[<-|[]]]; auto. apply HA. apply glist_in; auto.
    - intros z Hz. apply HB, glist_in; auto.
    - rewrite S1. exact LI1. }
  destruct (Z.ltb_spec d 0) as [DLT|DGE].
  - (* smaller *)
    destruct (Z.eqb_spec d 0) as [|_]; [lia|]. cbn [option_map]. destruct (LEFT DLT) as (h1 & E1 & LI1 & FO & CN & A1 & P1 & P2 & P3 & P4 & _).
    specialize (DL DLT). subst tl. rewrite app_nil_r in *. cbn [set_par bal]. rewrite (at_bal _ _ _ _ _ _ AT).
    assert (FIN' := FINL h1). clear FINL FINR RIGHT LEFT.
    destruct (Z.eqb_spec b 1) as [->|Nb1].
    + rewrite E1. destruct (attach_left h1 c y 1 tr new 0 A1 NI2 ltac:(lia) P1 P2 P3 P4) as (A2 & S2).
      eexists. exists (plug c (N (N L new 0 L) y 0 tr)), (upd F new []). split; [reflexivity|].
      apply at_ctx_holds in A2 as [H2 ND2].
      apply FIN'; auto.
      * apply balanced_plug. cbn [balanced height] in BY |- *. pose proof (height_nonneg tr). split; [repeat split; try tauto; lia|]. eapply ctxok_eq; [exact CO|cbn [height]; lia].
      * rewrite inorder_plug. cbn [inorder]. repeat (progress (cbn [app]; rewrite <- ?app_assoc)). reflexivity.
    + destruct (Z.eqb_spec b (-1)) as [->|Nbm]; [exfalso; cbn [balanced height] in BY; pose proof (height_nonneg tr); lia|].
      assert (b = 0) by (cbn [balanced] in BY; lia). subst b. rewrite E1.
      destruct (attach_left h1 c y 0 tr new (-1) A1 NI2 ltac:(lia) P1 P2 P3 P4) as (A2 & S2).
      assert (HTR : height tr = 0) by (cbn [balanced height] in BY; lia).
      destruct (post_insert_ok fuel c _ (N L new 0 L) y (-1) tr 1 ltac:(lia) A2) as (h3 & T' & -> & H3 & ND3 & B3 & I3 & S3).
      * cbn [balanced height] in BY |- *. repeat split; try tauto; lia.
      * lia.
      * cbn [height]. lia.
      * eapply ctxok_eq; [exact CO|cbn [height]; lia].
      * exists h3, T', (upd F new []). split; [reflexivity|]. apply FIN'; try assumption; try (eapply same_rest_trans; eassumption).
        rewrite I3, inorder_plug. cbn [inorder]. repeat (progress (cbn [app]; rewrite <- ?app_assoc)). reflexivity.
  - destruct (Z.eqb_spec d 0) as [D0|DN].
    + (* equal *)
      destruct dups eqn:DUP; cbn [negb option_map].
      * assert (LI := iv_list _ _ _ _ I). rewrite EL in LI.
        unfold avl_insert_after. cbn [ls set_fol].
        destruct (list1_after _ _ _ _ _ new LI NH) as (l1 & -> & LI1); [rewrite <- EL; auto|].
        eexists. exists T, (upd F y (new :: F y)). split; [reflexivity|].
        assert (YT : In y (inorder T)) by (rewrite IT; apply in_or_app; right; left; auto).
        assert (NDT := iv_nodupT _ _ _ _ I).
        constructor.
        -- assert (A : at_ctx h [] T) by (apply at_ctx_holds; cbn [plug]; split; auto; split; congruence).
           eapply (at_ctx_ext h _ [] T) in A; [apply at_ctx_holds in A; apply A|reflexivity..].
        -- apply I.
        -- exact LI1.
        -- rewrite IT in NDT |- *. apply NoDup_remove_2 in NDT. rewrite glist_app, glist_cons, upd_same. 
           rewrite !(glist_ext F (upd F y (new :: F y))); [reflexivity| |];
           intros z Hz; apply upd_other; intros ->; apply NDT, in_or_app; auto.
        -- intros z Hz. cbn. rewrite upd_other by (intros ->; auto). eapply iv_fol1; eauto.
        -- intros x z Hx Hz. cbn. unfold upd in Hz. destruct (Z.eqb_spec x y) as [->|Nxy].
           ++ destruct Hz as [<-|Hz]; [rewrite upd_same; auto|]. split; [|auto]. rewrite upd_other; auto. intros ->.
              apply NI. rewrite EL. apply in_or_app; right; right. apply in_or_app; auto.
           ++ rewrite upd_other; [eapply iv_fol2; eauto|]. intros ->. apply NI. rewrite (iv_eq _ _ _ _ I). apply in_flat_map. exists x. split; auto. right; auto.
        -- intros x Hx. apply in_app_or in Hx as [Hx|[<-|[<-|Hx]]]; auto; eapply iv_P; eauto; rewrite EL; apply in_or_app; auto. right; right; auto.
        -- apply I.
        -- congruence.
        -- cbn [cnt set_cnt set_ls set_fol]. rewrite (iv_cnt _ _ _ _ I), u32_succ. f_equal. rewrite EL.
           unfold zlen. repeat (progress (rewrite ?app_length; cbn [length])). lia.
      * exists h. split; [reflexivity|exact I].
    + (* larger *)
      assert (DGT : d > 0) by lia. destruct (RIGHT DGT) as (EF & h1 & E1 & LI1 & FO & CN & A1 & P1 & P2 & P3 & P4 & _).
      specialize (DR DGT). subst tr.
      assert (SQ : seq_insert comp key dups new (F y ++ gB) = Some (F y ++ new :: gB)).
      { rewrite seq_insert_skip; [rewrite seq_insert_front by auto; reflexivity|].
        intros z Hz. apply (gc_congr (key new) (key z) (key y)); auto. }
      rewrite SQ. cbn [option_map]. cbn [set_par bal]. rewrite (at_bal _ _ _ _ _ _ AT).
      replace (gA ++ y :: F y ++ new :: gB) with ((gA ++ y :: F y) ++ new :: gB) by (rewrite <- app_assoc; reflexivity).
      assert (FIN' := FINR h1). clear FINL FINR RIGHT LEFT.
      destruct (Z.eqb_spec b 1) as [->|Nb1]; [exfalso; cbn [balanced height] in BY; pose proof (height_nonneg tl); lia|].
      destruct (Z.eqb_spec b (-1)) as [->|Nbm].
      * rewrite EF, E1. destruct (attach_right h1 c tl y (-1) new 0 A1 NI2 ltac:(lia) P1 P2 P3 P4) as (A2 & S2).
        eexists. exists (plug c (N tl y 0 (N L new 0 L))), (upd F new []). split; [reflexivity|].
        apply at_ctx_holds in A2 as [H2 ND2].
        apply FIN'; auto.
        -- apply balanced_plug. cbn [balanced height] in BY |- *. pose proof (height_nonneg tl). split; [repeat split; try tauto; lia|]. eapply ctxok_eq; [exact CO|cbn [height]; lia].
        -- rewrite inorder_plug. cbn [inorder]. repeat (progress (cbn [app]; rewrite <- ?app_assoc)). reflexivity.
      * assert (b = 0) by (cbn [balanced] in BY; lia). subst b. rewrite EF, E1.
        destruct (attach_right h1 c tl y 0 new 1 A1 NI2 ltac:(lia) P1 P2 P3 P4) as (A2 & S2).
        assert (HTL : height tl = 0) by (cbn [balanced height] in BY; lia).
        destruct (post_insert_ok fuel c _ tl y 1 (N L new 0 L) 1 ltac:(lia) A2) as (h3 & T' & -> & H3 & ND3 & B3 & I3 & S3).
        -- cbn [balanced height] in BY |- *. repeat split; try tauto; lia.
        -- lia.
        -- cbn [height]. lia.
        -- eapply ctxok_eq; [exact CO|cbn [height]; lia].
        -- exists h3, T', (upd F new []). split; [reflexivity|]. apply FIN'; try assumption; try (eapply same_rest_trans; eassumption).
           rewrite I3, inorder_plug. cbn [inorder]. repeat (progress (cbn [app]; rewrite <- ?app_assoc)). reflexivity.
Qed.

Definition same_tree (h h' : aheap) : Prop :=
  par h' = par h /\ lft h' = lft h /\ rgt h' = rgt h /\ bal h' = bal h /\ fol h' = fol h /\ root h' = root h.
Lemma holds_same h h' T : same_tree h h' -> NoDup (inorder T) -> holds h T -> holds h' T.
Proof.
  intros (E1 & E2 & E3 & E4 & E5 & E6) ND HT. assert (A : at_ctx h [] T) by (apply at_ctx_holds; auto).
  apply (at_ctx_ext h h' [] T) in A; auto. apply at_ctx_holds in A. apply A.
Qed.
Lemma del_inv_finish T' F' h' l x A B : list1 head l (ls h') -> l = A ++ x :: B -> cnt h' = u32 (zlen l) ->
  (forall h2, list1 head (A ++ B) (ls h2) -> cnt h2 = u32 (zlen (A ++ B)) -> same_tree h' h2 -> ainv T' F' h2 (A ++ B)) ->
  exists h2, avl_remove_ h' x = Some h2 /\ ainv T' F' h2 (seq_remove x l).
Proof.
  intros LI EL CN H. unfold avl_remove_.
  destruct (list1_remove _ _ _ x LI) as (l1 & -> & LI1); [rewrite EL; apply in_or_app; right; left; auto|].
  pose proof (list1_nodup _ _ _ LI) as ND. inversion_clear ND as [|? ? _ ND'].
  assert (ED : seq_remove x l = A ++ B) by (rewrite EL in *; apply (del_split x A B ND')).
  change (del x l) with (seq_remove x l) in LI1. rewrite ED in *.
  eexists; split; [reflexivity|]. apply H.
  - exact LI1.
  - cbn. rewrite CN, u32_pred, EL, zlen_mid. f_equal. lia.
  - repeat split; reflexivity.
Qed.

Lemma ss_swap (R : Z -> Z -> Prop) A B x z : (forall a, In a A -> R a x -> R a z) -> (forall b, In b B -> R x b -> R z b) ->
  StronglySorted R (A ++ x :: B) -> StronglySorted R (A ++ z :: B).
Proof.
  intros HA HB SS. apply ss_app in SS as (S1 & S2 & S3). inversion_clear S2. rewrite Forall_forall in H0. apply ss_app. split; auto. split.
  - constructor; auto. apply Forall_forall. auto.
  - intros a b Ha [<-|Hb]; [apply HA; auto; apply S3; auto; left; auto|apply S3; auto; right; auto].
Qed.

(** avl.c:304-324: the next node of the same key moves into the tree *)
Definition promote (h : aheap) (node next : Z) : aheap :=
  let h := set_bal h next (bal h node) in
  let parent := par h node in
  let left := lft h node in
  let right := rgt h node in
  let h := set_par h next parent in
  let h := set_lft h next left in
  let h := set_rgt h next right in
  let h := set_child h parent node (Some next) in
  let h := set_par_if h left (Some next) in
  set_par_if h right (Some next).
Lemma promote_eq h y z : z <> y -> promote h y z = take_over h y z.
Proof.
  intros NZ. unfold promote, take_over. cbv zeta. rewrite <- !set_child_par_if. f_equal.
  cbn [set_bal set_par set_lft set_rgt par lft rgt].
  destruct (set_par_if_other (set_rgt (set_lft (set_par (set_bal h z (bal h y)) z (par h y)) z (lft h y)) z (rgt h y)) (lft h y) (Some z)) as (O1 & O2 & _).
  cbn [set_bal set_par set_lft set_rgt par lft rgt] in O2 |- *. rewrite !upd_same. 
  cbn [set_bal set_par set_lft set_rgt par lft rgt]. rewrite O2, upd_same. reflexivity.
Qed.

Lemma remove_ok T F h l fuel x : ainv T F h l -> In x l -> (S (length l) < fuel)%nat ->
  exists h' T' F', avl_remove dups head fuel h x = Some h' /\ ainv T' F' h' (seq_remove x l).
Proof.
  intros I Hx HF. unfold avl_remove.
  pose proof (iv_nodupT _ _ _ _ I) as NDT. destruct (iv_nodup _ _ _ _ I) as [NDL NHL].
  assert (LT : (length (inorder T) <= length l)%nat) by (rewrite (iv_eq _ _ _ _ I); apply glist_len).
  pose proof Hx as Hx'. rewrite (iv_eq _ _ _ _ I) in Hx'. apply glist_inv in Hx' as (y & Hy & D).
  apply in_split in Hy as (A & B & EI).
  assert (EL : l = glist F A ++ y :: F y ++ glist F B) by (rewrite (iv_eq _ _ _ _ I), EI, glist_app, glist_cons; reflexivity).
  assert (IY : In y (inorder T)) by (rewrite EI; apply in_or_app; right; left; auto).
  assert (OUT : forall Q, (forall w, w <> y -> Q w = F w) -> glist Q A = glist F A /\ glist Q B = glist F B).
  { intros Q HQ. rewrite EI in NDT. apply NoDup_remove_2 in NDT. split; apply glist_ext; intros w Hw; apply HQ; intros ->; apply NDT, in_or_app; auto. }
  destruct D as [->|Hxy].
  - (* a tree node *)
    rewrite (iv_fol1 _ _ _ _ I y IY). cbn [negb].
    assert (WORK : F y = [] -> exists h' T' F', (h <- avl_remove_worker fuel h y ;; avl_remove_ h y) = Some h' /\ ainv T' F' h' (seq_remove y l)).
    { intros FY. destruct (worker_ok fuel h T y A B ltac:(lia) (iv_tree _ _ _ _ I) NDT (iv_bal _ _ _ _ I) EI)
        as (h1 & T' & -> & H1 & ND1 & B1 & I1 & S1 & S2 & S3).
      rewrite FY in EL. cbn [app] in EL.
      destruct (del_inv_finish T' F h1 l y (glist F A) (glist F B)) as (h2 & -> & I2).
      - rewrite S1. apply I.
      - auto.
      - rewrite S3. apply I.
      - intros h2 LI2 CN2 ST. assert (SUB : forall w, In w (inorder T') -> In w (inorder T)).
        { intros w. rewrite I1, EI, !in_app_iff. cbn. tauto. }
        constructor; auto.
        + eapply holds_same; eauto.
        + rewrite I1. symmetry; apply glist_app.
        + intros w Hw. destruct ST as (_ & _ & _ & _ & -> & _). rewrite S2. eapply iv_fol1; eauto.
        + intros w v Hw Hv. destruct ST as (_ & _ & _ & _ & -> & _). rewrite S2. eapply iv_fol2; eauto.
        + intros w Hw. eapply iv_P; eauto. rewrite EL. apply in_app_or in Hw as [Hw|Hw]; apply in_or_app; cbn; auto.
        + rewrite I1. pose proof (iv_sorted _ _ _ _ I) as SS. rewrite EI in SS. apply ss_app in SS as (Q1 & Q2 & Q3).
          inversion_clear Q2. apply ss_app. split; auto. split; auto. intros; apply Q3; auto. right; auto.
        + intros DF w Hw. eapply iv_dups; eauto.
      - exists h2, T', F. auto. }
    pose proof (iv_list _ _ _ _ I) as LI. rewrite EL in LI.
    rewrite (list1_is_last _ _ _ _ _ LI).
    destruct dups eqn:DUP; cbn [andb]; [|apply WORK; eapply iv_dups; eauto].
    destruct (F y) as [|z rest] eqn:FY; cbn [app] in *.
    + destruct (glist F B) as [|w Q] eqn:GB; cbn [negb]; [apply WORK; auto|].
      destruct (list1_next _ _ _ _ _ _ LI) as [-> _].
      assert (FW : fol h w = false).
      { destruct B as [|w' B']; [discriminate|]. rewrite glist_cons in GB. injection GB as -> _. eapply iv_fol1; eauto. rewrite EI. apply in_or_app; right; right; left; auto. }
      rewrite FW. apply WORK; auto.
    + cbn [negb]. destruct (list1_next _ _ _ _ _ _ LI) as [-> _].
      destruct (iv_fol2 _ _ _ _ I y z IY) as [FZ CZ]; [rewrite FY; left; auto|]. rewrite FZ.
      destruct (in_plug T y IY) as (c & tl & b & tr & ET).
      assert (AT : at_ctx (set_fol h z false) c (N tl y b tr)).
      { apply (at_ctx_ext h); [reflexivity..|]. apply at_ctx_holds. rewrite <- ET. split; auto. apply I. }
      assert (ZT : ~ In z (inorder T)) by (intros X; rewrite (iv_fol1 _ _ _ _ I z X) in FZ; discriminate).
      assert (Bb : -128 <= b < 128).
      { pose proof (iv_bal _ _ _ _ I) as BT. rewrite ET in BT. apply balanced_plug in BT as [(_ & ? & _) _]. lia. }
      destruct (take_over_ok _ c tl y b tr z AT Bb) as (A2 & S2).
      { intros X. apply ZT. rewrite ET. eapply Permutation_in; [symmetry; apply perm_plug|exact X]. }
      assert (NZ : z <> y) by (intros ->; auto).
      pose proof (promote_eq (set_fol h z false) y z NZ) as EH. unfold promote in EH. cbv zeta in EH |- *. rewrite EH. clear EH.
      destruct S2 as (S2 & S3 & S4). cbn [ls fol cnt set_fol] in S2, S3, S4.
      assert (IT' : inorder (plug c (N tl z b tr)) = A ++ z :: B).
      { pose proof EI as EI'. pose proof NDT as NDT'. rewrite ET, inorder_plug in EI', NDT'. rewrite inorder_plug. cbn [inorder] in EI', NDT' |- *.
        rewrite <- !app_assoc in *. cbn [app] in *. rewrite app_assoc in *.
        destruct (split_unique _ _ _ _ _ NDT' EI') as [-> ->]. reflexivity. }
      apply at_ctx_holds in A2 as [H2 ND2].
      assert (GZ : glist (upd F z rest) A = glist F A /\ glist (upd F z rest) B = glist F B).
      { split; apply glist_ext; intros w Hw; apply upd_other; intros ->; apply ZT; rewrite EI; apply in_or_app; [left|right; right]; auto. }
      destruct GZ as [GZA GZB].
      assert (OLD : forall w, In w (A ++ z :: B) -> w = z \/ (In w (inorder T) /\ w <> z)).
      { intros w Hw. destruct (Z.eq_dec w z); auto. right. split; auto. rewrite EI. apply in_app_or in Hw as [Hw|[Hw|Hw]]; [|congruence|]; apply in_or_app; [left|right; right]; auto. }
      assert (PL : forall w, In w l -> P (key w)) by (intros; eapply iv_P; eauto).
      assert (Py : P (key y)) by (apply PL; auto).
      assert (Pz : P (key z)) by (apply PL; rewrite EL; apply in_or_app; right; right; left; auto).
      destruct (del_inv_finish (plug c (N tl z b tr)) (upd F z rest) (take_over (set_fol h z false) y z) l y (glist F A) (z :: rest ++ glist F B)) as (h2 & E2 & I2).
      * rewrite S2. apply I.
      * exact EL.
      * rewrite S4. apply I.
      * intros h2 LI2 CN2 ST. constructor; auto.
        -- eapply holds_same; eauto.
        -- pose proof (iv_bal _ _ _ _ I) as BT. rewrite ET in BT. apply balanced_plug in BT as [B1 B2]. apply balanced_plug. split; auto.
        -- rewrite IT', glist_app, glist_cons, upd_same, GZA, GZB. reflexivity.
        -- intros w Hw. rewrite IT' in Hw. destruct ST as (_ & _ & _ & _ & -> & _). rewrite S3.
           destruct (OLD w Hw) as [->|[Hw' Nw]]; [apply upd_same|rewrite upd_other by auto; eapply iv_fol1; eauto].
        -- intros w v Hw Hv. rewrite IT' in Hw. destruct ST as (_ & _ & _ & _ & -> & _). rewrite S3.
           destruct (OLD w Hw) as [->|[Hw' Nw]].
           ++ rewrite upd_same in Hv. destruct (iv_fol2 _ _ _ _ I y v IY) as [FV CV]; [rewrite FY; right; auto|].
              assert (v <> z). { intros ->. rewrite EL in NDL. apply NoDup_app_r in NDL. inversion_clear NDL. inversion_clear H0. apply H1, in_or_app; auto. }
              rewrite upd_other by auto. split; auto.
              assert (Pv : P (key v)) by (apply PL; rewrite EL; apply in_or_app; right; right; right; apply in_or_app; auto).
              apply (gc_congr (key v) (key z) (key y)); auto.
           ++ rewrite upd_other in Hv by auto. destruct (iv_fol2 _ _ _ _ I w v Hw' Hv) as [FV CV]. 
              assert (v <> z).
              { intros ->. assert (w <> y) by (intros ->; apply (NoDup_remove_2 A B y); [rewrite <- EI; auto|]; apply in_app_or in Hw as [Hw|[Hw|Hw]]; [|congruence|]; apply in_or_app; auto).
                assert (IN2 : In z (glist F (A ++ B))).
                { apply in_flat_map. exists w. split; [|right; auto]. rewrite EI in Hw'. apply in_app_or in Hw' as [?|[?|?]]; [|congruence|]; apply in_or_app; auto. }
                rewrite glist_app in IN2. rewrite EL in NDL.
                replace (glist F A ++ y :: z :: rest ++ glist F B) with ((glist F A ++ [y]) ++ z :: rest ++ glist F B) in NDL by (rewrite <- app_assoc; reflexivity).
                apply NoDup_remove_2 in NDL. apply NDL. rewrite !in_app_iff in *. tauto. }
              rewrite upd_other by auto. auto.
        -- intros w Hw. apply PL. rewrite EL. apply in_app_or in Hw as [Hw|Hw]; apply in_or_app; auto. right; right; auto.
        -- rewrite IT'. pose proof (iv_sorted _ _ _ _ I) as SS. rewrite EI in SS.
           apply (ss_swap _ A B y z); auto.
           ++ intros a Ha HR. assert (Pa : P (key a)) by (apply PL; eapply iv_inT; eauto; rewrite EI; apply in_or_app; auto).
              apply (gc_congr (key a) (key z) (key y)); auto.
           ++ intros a Ha HR. assert (Pa : P (key a)) by (apply PL; eapply iv_inT; eauto; rewrite EI; apply in_or_app; right; right; auto).
              unfold klt in *. apply (gc_trans (key z) (key y) (key a)); auto; lia.
        -- congruence.
      * exists h2. eexists. eexists. split; [exact E2|exact I2].
  - (* a further node of the same key *)
    destruct (iv_fol2 _ _ _ _ I y x IY Hxy) as [FX CX]. rewrite FX. cbn [negb].
    apply in_split in Hxy as (Q1 & Q2 & EQ).
    assert (EL' : l = (glist F A ++ y :: Q1) ++ x :: (Q2 ++ glist F B)) by (rewrite EL, EQ; repeat (progress (rewrite <- ?app_assoc; cbn [app])); reflexivity).
    destruct (OUT (upd F y (Q1 ++ Q2))) as [GA GB]; [intros; apply upd_other; auto|].
    assert (SUB : forall w v, In v (upd F y (Q1 ++ Q2) w) -> In v (F w)).
    { intros w v. unfold upd. destruct (Z.eqb_spec w y) as [->|]; auto. rewrite EQ, !in_app_iff. cbn. tauto. }
    destruct (del_inv_finish T (upd F y (Q1 ++ Q2)) h l x (glist F A ++ y :: Q1) (Q2 ++ glist F B)) as (h2 & E2 & I2).
    + apply I.
    + exact EL'.
    + apply I.
    + intros h2 LI2 CN2 ST. constructor; auto.
      * eapply holds_same; eauto. apply I.
      * apply I.
      * rewrite EI, glist_app, glist_cons, upd_same, GA, GB. repeat (progress (rewrite <- ?app_assoc; cbn [app])). reflexivity.
      * intros w Hw. destruct ST as (_ & _ & _ & _ & -> & _). eapply iv_fol1; eauto.
      * intros w v Hw Hv. destruct ST as (_ & _ & _ & _ & -> & _). eapply iv_fol2; eauto.
      * intros w Hw. eapply iv_P; eauto. rewrite EL'. apply in_app_or in Hw as [Hw|Hw]; apply in_or_app; auto. right; right; auto.
      * apply I.
      * intros DF w Hw. pose proof (iv_dups _ _ _ _ I DF y IY) as X. rewrite EQ in X. destruct Q1; discriminate.
    + exists h2. eexists. eexists. split; [exact E2|exact I2].
Qed.

(** lookups *)
Lemma first_with_at f A x B : (forall z, In z A -> f (key z) = false) -> f (key x) = true -> first_with key f (A ++ x :: B) = Some x.
Proof.
  unfold first_with. induction A as [|a A IH]; cbn [app find]; intros HA HX; [now rewrite HX|].
  rewrite (HA a) by (left; auto). apply IH; auto. intros; apply HA; right; auto.
Qed.
Lemma first_with_none f l : (forall z, In z l -> f (key z) = false) -> first_with key f l = None.
Proof.
  unfold first_with. induction l as [|a A IH]; cbn [find]; intros HA; auto.
  rewrite (HA a) by (left; auto). apply IH; auto. intros; apply HA; right; auto.
Qed.
Lemma last_with_at f A x B : (forall z, In z B -> f (key z) = false) -> f (key x) = true -> last_with key f (A ++ x :: B) = Some x.
Proof.
  intros HB HX. unfold last_with. rewrite rev_app_distr. cbn [rev]. rewrite <- app_assoc. cbn [app].
  apply first_with_at; auto. intros z Hz. apply HB, in_rev; auto.
Qed.
Lemma last_with_none f l : (forall z, In z l -> f (key z) = false) -> last_with key f l = None.
Proof. intros H. apply first_with_none. intros z Hz. apply H, in_rev; auto. Qed.

Lemma le_right_ok h k : forall fuel B1 A x B2 node d, list1 head (A ++ x :: B1 ++ B2) (ls h) ->
  (forall z, In z B1 -> comp k (key z) >= 0) -> match B2 with [] => True | z :: _ => comp k (key z) < 0 end -> d >= 0 ->
  (S (length B1) < fuel)%nat -> le_right comp key head fuel h k node x d = Some (last B1 x).
Proof.
  induction fuel as [|f IH]; intros B1 A x B2 node d LI H1 H2 D LF; [lia|]. cbn [le_right].
  rewrite Z.geb_leb. destruct (Z.leb_spec 0 d); [|lia]. rewrite (list1_is_last _ _ _ _ _ LI).
  destruct B1 as [|b B1]; cbn [app] in *.
  - destruct B2 as [|z B2]; auto. destruct (list1_next _ _ _ _ _ _ LI) as [-> _].
    destruct f as [|f]; [cbn in LF; lia|]. cbn [le_right]. rewrite Z.geb_leb. destruct (Z.leb_spec 0 (comp k (key z))); [lia|]. reflexivity.
  - destruct (list1_next _ _ _ _ _ _ LI) as [-> _]. rewrite (IH B1 (A ++ [x]) b B2); auto.
    + destruct B1; auto. cbn [last]. f_equal. clear. revert z. induction B1 as [|a G IH]; intros z; auto. cbn [last]. destruct G; auto.
    + rewrite <- app_assoc. exact LI.
    + intros; apply H1; right; auto.
    + apply H1. left; auto.
    + cbn in LF. lia.
Qed.
Lemma ge_right_ok h k : forall fuel G A x B d, list1 head (A ++ x :: G ++ B) (ls h) ->
  (forall z, In z G -> comp k (key z) > 0) -> match B with [] => True | z :: _ => comp k (key z) < 0 end -> d > 0 ->
  (S (length G) < fuel)%nat -> ge_right comp key head fuel h k x d = Some (match B with [] => None | z :: _ => Some (z, comp k (key z)) end).
Proof.
  induction fuel as [|f IH]; intros G A x B d LI H1 H2 D LF; [lia|]. cbn [ge_right].
  rewrite Z.gtb_ltb. destruct (Z.ltb_spec 0 d); [|lia]. rewrite (list1_is_last _ _ _ _ _ LI).
  destruct G as [|b G]; cbn [app] in *.
  - destruct B as [|z B]; auto. destruct (list1_next _ _ _ _ _ _ LI) as [-> _].
    destruct f as [|f]; [cbn in LF; lia|]. cbn [ge_right]. rewrite Z.gtb_ltb. destruct (Z.ltb_spec 0 (comp k (key z))); [lia|]. reflexivity.
  - destruct (list1_next _ _ _ _ _ _ LI) as [-> _]. rewrite (IH G (A ++ [x]) b B); auto.
    + rewrite <- app_assoc. exact LI.
    + intros; apply H1; right; auto.
    + apply H1. left; auto.
    + cbn in LF. lia.
Qed.
Lemma ge_left_ok h k fuel A x B d : list1 head (A ++ x :: B) (ls h) -> (forall z, In z A -> comp k (key z) > 0) -> d <= 0 -> (1 < fuel)%nat ->
  ge_left comp key head fuel h k x x d = Some x.
Proof.
  intros LI HA D LF. destruct fuel as [|[|f]]; [lia..|]. cbn [ge_left]. destruct (Z.leb_spec d 0); [|lia].
  rewrite (list1_is_first _ _ _ _ _ LI). destruct A as [|a A _] using rev_ind; auto.
  rewrite <- app_assoc in LI. cbn [app] in LI. destruct (list1_next _ _ _ _ _ _ LI) as [_ ->].
  replace (match A ++ [a] with [] => true | _ => false end) with false by (destruct A; reflexivity).
  destruct (Z.leb_spec (comp k (key a)) 0); auto. exfalso. assert (comp k (key a) > 0) by (apply HA, in_or_app; right; left; auto). lia.
Qed.

Lemma lookup_ok T F h l fuel k : ainv T F h l -> P k -> 
  (height T <= Z.of_nat fuel -> avl_find comp key fuel h k = Some (first_with key (fun k' => comp k k' =? 0) l)) /\
  ((S (length l) < fuel)%nat -> avl_find_lessequal comp key head fuel h k = Some (last_with key (fun k' => 0 <=? comp k k') l)) /\
  ((S (length l) < fuel)%nat -> avl_find_greaterequal comp key head fuel h k = Some (first_with key (fun k' => comp k k' <=? 0) l)).
Proof.
  intros I Pk. unfold avl_find, avl_find_lessequal, avl_find_greaterequal.
  destruct (rootp T) as [r0|] eqn:RT.
  2:{ assert (T = L) by (destruct T; [auto|discriminate]). subst T. destruct (iv_tree _ _ _ _ I) as [-> _].
      rewrite (iv_eq _ _ _ _ I). cbn. auto. }
  assert (TL : T <> L) by (intros ->; discriminate).
  destruct (find_pos T F h l k I Pk TL) as (c & tl & y & b & tr & x0 & EX & ET & FR' & DL & DR & EL & HA & HB & FE & FT & FN).
  rewrite EX. assert (LT : (length (inorder T) <= length l)%nat) by (rewrite (iv_eq _ _ _ _ I); apply glist_len).
  pose proof (height_len T) as HL.
  set (gA := glist F (lpart c ++ inorder tl)) in *. set (gB := glist F (inorder tr ++ rpart c)) in *. clearbody gA gB.
  assert (PL : forall z, In z l -> P (key z)) by (intros; eapply iv_P; eauto).
  assert (PY : P (key y)) by (apply PL; rewrite EL; apply in_or_app; right; left; auto).
  assert (SG : forall z, In z (F y) -> (comp k (key z) < 0 <-> comp k (key y) < 0) /\ (comp k (key z) > 0 <-> comp k (key y) > 0) /\ (comp k (key z) = 0 <-> comp k (key y) = 0)).
  { intros z Hz. apply gc_congr; auto. apply PL. rewrite EL. apply in_or_app; right; right. apply in_or_app; auto. }
  pose proof (iv_list _ _ _ _ I) as LI. rewrite EL in LI.
  assert (LEN : length l = (length gA + S (length (F y) + length gB))%nat) by (rewrite EL, app_length; cbn [length]; rewrite app_length; auto).
  assert (HBh : match gB with [] => True | z :: _ => comp k (key z) < 0 end) by (destruct gB; auto; apply HB; left; auto).
  remember (comp k (key y)) as d eqn:ED. rewrite EL. split; [|split].
  - intros HF. rewrite FR' by lia. cbn [fst snd]. destruct (Z.eqb_spec d 0) as [D0|D0].
    + rewrite first_with_at; auto; [|apply Z.eqb_eq; lia]. intros z Hz. apply Z.eqb_neq. specialize (HA z Hz). lia.
    + rewrite first_with_none; auto. intros z Hz. apply Z.eqb_neq. apply in_app_or in Hz as [Hz|[<-|Hz]]; [specialize (HA z Hz); lia|lia|].
      apply in_app_or in Hz as [Hz|Hz]; [specialize (SG z Hz)|specialize (HB z Hz)]; lia.
  - intros HF. rewrite <- EL in HF. rewrite FR' by lia. cbn [fst snd]. destruct fuel as [|[|fuel]]; [lia..|]. cbn [le_left].
    destruct (Z.ltb_spec d 0) as [DLT|DGE].
    + assert (NB : forall z, In z (y :: F y ++ gB) -> (0 <=? comp k (key z)) = false).
      { intros z [<-|Hz]; [apply Z.leb_gt; lia|]. apply Z.leb_gt. apply in_app_or in Hz as [Hz|Hz]; [specialize (SG z Hz)|specialize (HB z Hz)]; lia. }
      rewrite (list1_is_first _ _ _ _ _ LI). destruct gA as [|a gA _] using rev_ind.
      * cbn [app]. rewrite last_with_none; auto.
      * replace (match gA ++ [a] with [] => true | _ => false end) with false by (destruct gA; reflexivity).
        rewrite <- app_assoc in LI |- *. cbn [app] in LI |- *. destruct (list1_next _ _ _ _ _ _ LI) as [_ ->].
        assert (GT : comp k (key a) > 0) by (apply HA, in_or_app; right; left; auto).
        destruct (Z.ltb_spec (comp k (key a)) 0); [lia|].
        rewrite (le_right_ok h k (S (S fuel)) [] gA a (y :: F y ++ gB)); auto; try lia; [|intros z []|cbn [length]; lia].
        cbn [last]. rewrite last_with_at; auto. apply Z.leb_le. lia.
    + rewrite (le_right_ok h k (S (S fuel)) (F y) gA y gB); auto; try lia; try (intros z Hz; specialize (SG z Hz); lia).
      f_equal. symmetry. 
      assert (SPL : exists pre, gA ++ y :: F y = pre ++ [last (F y) y]).
      { clear. destruct (F y) as [|q Q _] using rev_ind; [exists gA; reflexivity|]. exists (gA ++ y :: Q). rewrite last_last, <- app_assoc. reflexivity. }
      destruct SPL as [pre SPL].
      replace (gA ++ y :: F y ++ gB) with (pre ++ last (F y) y :: gB).
      2:{ change (y :: F y ++ gB) with ((y :: F y) ++ gB). rewrite app_assoc, SPL, <- app_assoc. reflexivity. }
      apply last_with_at.
      * intros z Hz. apply Z.leb_gt. specialize (HB z Hz). lia.
      * apply Z.leb_le. destruct (F y) as [|q Q _] using rev_ind; [cbn; lia|]. rewrite last_last.
        specialize (SG q ltac:(apply in_or_app; right; left; auto)). lia.
  - intros HF. rewrite <- EL in HF. rewrite FR' by lia. cbn [fst snd]. destruct (Z_le_gt_dec d 0) as [DLE|DGT].
    + destruct fuel as [|fuel]; [lia|]. cbn [ge_right]. rewrite Z.gtb_ltb. destruct (Z.ltb_spec 0 d); [lia|].
      rewrite (ge_left_ok h k (S fuel) gA y (F y ++ gB)); auto; [|lia].
      rewrite first_with_at; auto; [|apply Z.leb_le; lia]. intros z Hz. apply Z.leb_gt. specialize (HA z Hz). lia.
    + rewrite (ge_right_ok h k fuel (F y) gA y gB); auto; try lia; try (intros z Hz; specialize (SG z Hz); lia).
      assert (NA : forall z, In z (gA ++ y :: F y) -> comp k (key z) > 0).
      { intros z Hz. apply in_app_or in Hz as [Hz|[<-|Hz]]; [auto|lia|]. specialize (SG z Hz). lia. }
      destruct gB as [|w gB].
      * rewrite app_nil_r in *. rewrite first_with_none; auto. intros z Hz. apply Z.leb_gt. specialize (NA z Hz). lia.
      * assert (RE : gA ++ y :: F y ++ w :: gB = (gA ++ y :: F y) ++ w :: gB) by (rewrite <- app_assoc; reflexivity).
        rewrite RE in LI |- *. rewrite (ge_left_ok h k fuel (gA ++ y :: F y) w gB); auto; try lia.
        rewrite first_with_at; auto; [|apply Z.leb_le; lia]. intros z Hz. apply Z.leb_gt. specialize (NA z Hz). lia.
Qed.

(** observations *)
Definition kle (x y : Z) : Prop := comp (key x) (key y) <= 0.
Lemma iv_le T F h l : ainv T F h l -> StronglySorted kle l.
Proof.
  intros I. pose proof (iv_sorted _ _ _ _ I) as SS. rewrite (iv_eq _ _ _ _ I).
  assert (FE : forall x y, In x (inorder T) -> In y (F x) -> comp (key y) (key x) = 0) by (intros x y Hx Hy; eapply iv_fol2; eauto).
  assert (PL : forall x, In x (glist F (inorder T)) -> P (key x)) by (rewrite <- (iv_eq _ _ _ _ I); apply I).
  revert SS FE PL. generalize (inorder T). clear I. induction l0 as [|x l0 IH]; intros SS FE PL; [constructor|].
  rewrite glist_cons in *. inversion_clear SS. rewrite Forall_forall in H0.
  assert (PX : P (key x)) by (apply PL; left; auto).
  assert (PG : forall z, In z (F x) -> P (key z)) by (intros; apply PL; right; apply in_or_app; auto).
  assert (PR : forall z, In z (glist F l0) -> P (key z)) by (intros; apply PL; right; apply in_or_app; auto).
  assert (EQ : forall u v, In u (x :: F x) -> In v (x :: F x) -> comp (key u) (key v) = 0).
  { intros u v Hu Hv. assert (Z1 : forall w, In w (x :: F x) -> P (key w) /\ comp (key w) (key x) = 0).
    { intros w [<-|Hw]; split; auto; [apply gc_refl; auto|apply FE; auto; left; auto]. }
    destruct (Z1 u Hu) as [Pu Eu], (Z1 v Hv) as [Pv Ev]. apply (gc_congr (key u) (key v) (key x)); auto. }
  assert (LT : forall u v, In u (x :: F x) -> In v (glist F l0) -> comp (key u) (key v) < 0).
  { intros u v Hu Hv. assert (Pu : P (key u)) by (destruct Hu as [<-|Hu]; auto). pose proof (PR v Hv) as Pv.
    assert (E1 : comp (key u) (key x) = 0) by (apply EQ; auto; left; auto).
    apply glist_inv in Hv as (w & Hw & D). assert (Pw : P (key w)) by (apply PR, glist_in; auto).
    assert (E2 : comp (key v) (key w) = 0) by (destruct D as [->|D]; [apply gc_refl; auto|apply FE; auto; right; auto]).
    apply (gc_congr (key u) (key v) (key w)); auto. apply (gc_trans (key u) (key x) (key w)); auto; [lia| |right]; pose proof (H0 w Hw); unfold klt in *; lia. }
  change (x :: F x ++ glist F l0) with ((x :: F x) ++ glist F l0). apply ss_app. split; [|split].
  - assert (forall M, (forall z, In z M -> In z (x :: F x)) -> StronglySorted kle M).
    { induction M as [|m M IHM]; intros HM; constructor; [apply IHM; intros; apply HM; right; auto|].
      apply Forall_forall. intros w Hw. unfold kle. rewrite EQ; [lia|apply HM; left; auto|apply HM; right; auto]. }
    auto.
  - apply IH; auto. intros; apply FE; auto. right; auto.
  - intros u v Hu Hv. unfold kle. specialize (LT u v Hu Hv). lia.
Qed.

Lemma seq_insert_perm n l l' : seq_insert comp key dups n l = Some l' -> Permutation l' (n :: l).
Proof.
  revert l'. induction l as [|x l IH]; cbn [seq_insert]; intros l' E; [injection E as <-; auto|].
  destruct (_ <? 0); [injection E as <-; auto|]. destruct (_ =? 0).
  - destruct dups; [|discriminate]. injection E as <-. apply perm_swap.
  - destruct (seq_insert _ _ _ n l) as [l1|]; [|discriminate]. injection E as <-. rewrite (IH l1 eq_refl). apply perm_swap.
Qed.
Lemma seq_insert_none n l : seq_insert comp key dups n l = None -> dups = false /\ exists x, In x l /\ comp (key n) (key x) = 0.
Proof.
  induction l as [|x l IH]; cbn [seq_insert]; intros E; [discriminate|].
  destruct (_ <? 0); [discriminate|]. destruct (Z.eqb_spec (comp (key n) (key x)) 0) as [E0|].
  - destruct dups; [discriminate|]. split; auto. exists x. split; auto. left; auto.
  - destruct (seq_insert _ _ _ n l) as [l1|]; [discriminate|]. destruct (IH eq_refl) as (D & y & Hy & Ey). split; auto. exists y; split; auto. right; auto.
Qed.
Lemma seq_insert_some n l l' : P (key n) -> (forall x, In x l -> P (key x)) -> StronglySorted kle l ->
  seq_insert comp key dups n l = Some l' -> dups = false -> forall x, In x l -> comp (key n) (key x) <> 0.
Proof.
  intros Pn. revert l'. induction l as [|x l IH]; cbn [seq_insert]; intros l' PL SS E DF y Hy; [destruct Hy|].
  inversion_clear SS. rewrite Forall_forall in H0. assert (Px : P (key x)) by (apply PL; left; auto).
  destruct (Z.ltb_spec (comp (key n) (key x)) 0) as [LT|].
  - destruct Hy as [<-|Hy]; [lia|]. assert (comp (key n) (key y) < 0); [|lia].
    apply (gc_trans (key n) (key x) (key y)); auto; [apply PL; right; auto|lia|apply H0; auto].
  - destruct (Z.eqb_spec (comp (key n) (key x)) 0) as [E0|NE]; [rewrite DF in E; discriminate|].
    destruct (seq_insert _ _ _ n l) as [l1|]; [|discriminate]. destruct Hy as [<-|Hy]; auto.
    eapply IH; eauto. intros; apply PL; right; auto.
Qed.

Lemma filter_perm (f : Z -> bool) l l' : Permutation l l' -> Permutation (filter f l) (filter f l').
Proof.
  induction 1; cbn; auto.
  - destruct (f x); auto.
  - destruct (f x), (f y); auto. apply perm_swap.
  - etransitivity; eauto.
Qed.
Lemma existsb_perm (f : Z -> bool) l l' : Permutation l l' -> existsb f l = existsb f l'.
Proof.
  intros PE. apply eq_true_iff_eq. rewrite !existsb_exists. split; intros (x & Hx & E); exists x; split; auto.
  - eapply Permutation_in; eauto.
  - eapply Permutation_in; [symmetry|]; eauto.
Qed.
Lemma seq_remove_len x l : (length (seq_remove x l) <= length l)%nat.
Proof. unfold seq_remove. induction l as [|a l IH]; cbn; [lia|]. destruct (negb _); cbn; lia. Qed.
Lemma seq_insert_len n l l' : seq_insert comp key dups n l = Some l' -> length l' = S (length l).
Proof. intros E. apply seq_insert_perm, Permutation_length in E. exact E. Qed.

(** one step, in terms of the sequence *)
Lemma step_ok T F h l fuel o : ainv T F h l -> seq_ok key P head l o -> (S (length l) < fuel)%nat ->
  exists h' T' F', astep comp key dups head fuel h o = Some (h', snd (seq_step comp key dups l o)) /\ ainv T' F' h' (fst (seq_step comp key dups l o)).
Proof.
  intros I OK HF. destruct o as [n|n]; cbn [seq_ok astep seq_step] in *.
  - destruct OK as (H1 & H2 & H3). pose proof (insert_ok T F h l fuel n I H1 H2 H3 HF) as IO.
    destruct (seq_insert comp key dups n l) as [l'|].
    + destruct IO as (h' & T' & F' & -> & I'). exists h', T', F'. auto.
    + destruct IO as (h' & -> & I'). exists h', T, F. auto.
  - destruct (remove_ok T F h l fuel n I OK HF) as (h' & T' & F' & -> & I'). exists h', T', F'. auto.
Qed.
Lemma seq_step_len l o : (length (fst (seq_step comp key dups l o)) <= S (length l))%nat.
Proof.
  destruct o as [n|n]; cbn [seq_step].
  - destruct (seq_insert comp key dups n l) as [l'|] eqn:E; cbn [fst]; [|lia]. apply seq_insert_len in E. lia.
  - cbn [fst]. pose proof (seq_remove_len n l). lia.
Qed.
Lemma run_ok fuel l ops l' rs : seq_run comp key dups P head l ops l' rs -> forall T F h, ainv T F h l -> (S (length l + length ops) < fuel)%nat ->
  exists h' T' F', arun comp key dups head fuel h ops = Some (h', rs) /\ ainv T' F' h' l'.
Proof.
  induction 1 as [l|l o ops l' rs OK SR IH]; intros T F h I HF; cbn [arun length] in *.
  - exists h, T, F. auto.
  - destruct (step_ok T F h l fuel o I OK ltac:(lia)) as (h1 & T1 & F1 & -> & I1).
    destruct (IH T1 F1 h1 I1) as (h2 & T2 & F2 & E2 & I2).
    { pose proof (seq_step_len l o). lia. }
    cbn [fst]. rewrite E2. cbn [fst snd]. exists h2, T2, F2. auto.
Qed.
Lemma init_ok : ainv L (fun _ => []) (avl_init head) [].
Proof.
  assert (ND : NoDup [head]) by (repeat constructor; auto).
  assert (LI : list1 head [] (ls (avl_init head))) by (apply linit_inv; exact ND).
  split.
  - split; reflexivity.
  - exact I.
  - exact LI.
  - reflexivity.
  - intros x [].
  - intros x y [].
  - intros x [].
  - constructor.
  - intros _ x [].
  - reflexivity.
Qed.

(** set view *)
Lemma set_seq_step T F h l s o : ainv T F h l -> Permutation l s -> set_ok key P head s o ->
  seq_ok key P head l o /\ snd (seq_step comp key dups l o) = snd (set_step comp key dups s o) /\
  Permutation (fst (seq_step comp key dups l o)) (fst (set_step comp key dups s o)).
Proof.
  intros I PE OK. destruct o as [n|n]; cbn [seq_ok set_ok seq_step set_step] in *.
  - destruct OK as (H1 & H2 & H3). split; [split; [auto|split; auto]; intros X; apply H2; eapply Permutation_in; eauto|].
    rewrite <- (existsb_perm _ _ _ PE).
    destruct (seq_insert comp key dups n l) as [l'|] eqn:E.
    + assert (EX : negb dups && existsb (fun x => comp (key n) (key x) =? 0) l = false).
      { destruct dups eqn:DF; auto. cbn [negb andb]. destruct (existsb _ l) eqn:EB; auto. exfalso.
        apply existsb_exists in EB as (x & Hx & EB). apply Z.eqb_eq in EB. rewrite <- DF in E.
        eapply (seq_insert_some n l l'); eauto; [apply I|eapply iv_le; eauto]. }
      rewrite EX. cbn [fst snd]. split; auto. rewrite (seq_insert_perm _ _ _ E). auto.
    + apply seq_insert_none in E as (-> & x & Hx & E). 
      assert (EX : existsb (fun x => comp (key n) (key x) =? 0) l = true) by (apply existsb_exists; exists x; split; auto; apply Z.eqb_eq; auto).
      rewrite EX. cbn. auto.
  - split; [eapply Permutation_in; [symmetry|]; eauto|]. split; auto. cbn [fst]. apply filter_perm; auto.
Qed.
Lemma set_run_ok fuel ops : forall T F h l s, ainv T F h l -> Permutation l s -> set_legal comp key dups P head s ops -> (S (length l + length ops) < fuel)%nat ->
  exists h' T' F' l', arun comp key dups head fuel h ops = Some (h', snd (set_run comp key dups s ops)) /\ ainv T' F' h' l' /\
    Permutation l' (fst (set_run comp key dups s ops)) /\ seq_run comp key dups P head l ops l' (snd (set_run comp key dups s ops)) /\ (length l' <= length l + length ops)%nat.
Proof.
  induction ops as [|o ops IH]; intros T F h l s I PE LG HF; cbn [arun length set_run set_legal] in *.
  - exists h, T, F, l. repeat (split; auto); [constructor|lia].
  - destruct LG as [OK LG]. destruct (set_seq_step T F h l s o I PE OK) as (OK' & E1 & PE1).
    destruct (step_ok T F h l fuel o I OK' ltac:(lia)) as (h1 & T1 & F1 & -> & I1). cbn [fst snd].
    pose proof (seq_step_len l o).
    destruct (IH T1 F1 h1 _ _ I1 PE1 LG ltac:(lia)) as (h2 & T2 & F2 & l2 & E2 & I2 & PE2 & SR & LE). rewrite E2. cbn [fst snd].
    exists h2, T2, F2, l2. rewrite E1. split; [reflexivity|]. split; auto. split; auto. split; [|lia]. rewrite <- E1. constructor; auto.
Qed.
End Avl.

(** depth *)
Lemma size_inorder t : size t = zlen (inorder t).
Proof. induction t; cbn [size inorder]; [reflexivity|]. unfold zlen in *. rewrite app_length. cbn [length]. lia. Qed.
Lemma height_size t : balanced t -> 2 ^ height t <= (size t + 1) ^ 2.
Proof.
  induction t as [|l IHl x b r IHr]; intros B; cbn [height size]; [cbn; lia|].
  cbn [balanced] in B. destruct B as (Eb & Hb & Bl & Br). specialize (IHl Bl). specialize (IHr Br).
  assert (NN : forall t, 0 <= size t) by (intros; rewrite size_inorder; unfold zlen; lia).
  pose proof (NN l). pose proof (NN r). pose proof (height_nonneg l) as H1. pose proof (height_nonneg r) as H2.
  assert (G : forall h1 h2 a c, 0 <= h2 -> 0 <= h1 -> h1 = h2 \/ h1 = h2 + 1 -> 0 < a -> 0 < c -> 2 ^ h1 <= a ^ 2 -> 2 ^ h2 <= c ^ 2 -> 2 ^ (1 + h1) <= (a + c) ^ 2).
  { intros h1 h2 a c P2 P1 D Pa Pc Ha Hc. rewrite Z.pow_add_r by lia. change (2 ^ 1) with 2.
    assert (P : 2 ^ h1 <= 2 * 2 ^ h2) by (destruct D as [->| ->]; [pose proof (Z.pow_nonneg 2 h2); lia|rewrite Z.pow_add_r by lia; change (2 ^ 1) with 2; lia]).
    pose proof (Z.pow_nonneg 2 h1 ltac:(lia)). pose proof (Z.pow_nonneg 2 h2 ltac:(lia)).
    set (u := 2 ^ h1) in *. set (v := 2 ^ h2) in *. clearbody u v.
    rewrite Z.pow_2_r in *. 
    assert (u <= 2 * (a * c)).
    { apply Z.square_le_simpl_nonneg; [nia|]. assert (u * v <= a * a * (c * c)) by nia. nia. }
    nia. }
  destruct (Z_le_gt_dec (height r) (height l)).
  - rewrite Z.max_l by lia. replace (1 + size l + size r + 1) with ((size l + 1) + (size r + 1)) by lia.
    apply (G (height l) (height r)); auto; lia.
  - rewrite Z.max_r by lia. replace (1 + size l + size r + 1) with ((size r + 1) + (size l + 1)) by lia.
    apply (G (height r) (height l)); auto; lia.
Qed.

Lemma list1_view head h l : list1 head l (ls h) -> cnt h = u32 (zlen l) -> avl_view head h l.
Proof.
  intros LI CN. destruct (lists_inv_view _ _ _ LI) as (V1 & V2 & V3 & V4 & V5).
  assert (Hh : In head [head]) by (left; auto).
  split; [|split; [|split; [|split]]]; auto.
  - intros fuel HF. apply (V1 head fuel Hh HF).
  - intros x Hx. unfold avl_is_node_added. rewrite V5 by (intros [|[]]; congruence). split.
    + intros (hd & _ & H). exact H.
    + intros H. exists head. split; auto.
  - intros x Hx. apply (V3 head x Hh Hx).
  - intros x Hx. apply (V4 head x Hh Hx).
Qed.
