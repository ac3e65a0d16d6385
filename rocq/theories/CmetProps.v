(** Theorems about constant link metrics (CmetModel.v). *)
From Verif Require Import Base BufLemmas CmetModel.

(** ** Specification *)

(** the configuration: the last content of a section *)
Fixpoint last_config (os : list op) (i : Z) (cur : list (option (option Z * Z))) : list (option (option Z * Z)) :=
  match os with
  | [] => cur
  | Config j vals :: r => last_config r i (if j =? i then vals else cur)
  | _ :: r => last_config r i cur
  end.
(** the cost a section gives for a neighbor: its first entry for it *)
Inductive gives (nb : option Z) (c : Z) : list (option (option Z * Z)) -> Prop :=
| gives_here : forall r, gives nb c (Some (nb, c) :: r)
| gives_later : forall v r, (forall d, v <> Some (nb, d)) -> gives nb c r -> gives nb c (v :: r).
Definition configured (os : list op) (i : Z) (nb : option Z) (c : Z) : Prop := gives nb c (last_config os i []).

(** the entry for interface [i] and neighbor [nb] is for link [l]; the smaller the number
    the more it is meant for it: entries for the neighbor before those for all, the
    interface itself before any, the own address before the one of the partner *)
Definition meant (l : link) (i : Z) (nb : option Z) (rank : Z) : Prop :=
  match rank with
  | 0 => i = l_if l /\ nb <> None /\ nb = l_orig l
  | 1 => i = l_if l /\ nb <> None /\ l_dual l = Some nb
  | 2 => i = any /\ nb <> None /\ nb = l_orig l
  | 3 => i = any /\ nb <> None /\ l_dual l = Some nb
  | 4 => i = l_if l /\ nb = None
  | 5 => i = any /\ nb = None
  | _ => False
  end.
Definition right_metric (os : list op) (l : link) : Prop :=
  (exists i nb c r, configured os i nb c /\ meant l i nb r /\ l_in l = c /\ forall i' nb' c' r', configured os i' nb' c' -> meant l i' nb' r' -> r <= r') \/
  (l_in l = INFINITE /\ forall i nb c r, configured os i nb c -> ~ meant l i nb r).

(** ** The table is the configuration *)
Lemma nb_ok : forall a b, nb_eqb a b = true <-> a = b.
Proof. intros [x|] [y|]; cbn [nb_eqb]; split; intro H; try discriminate; try reflexivity; [f_equal; lia|injection H as ->; apply Z.eqb_refl]. Qed.
Lemma key_ok : forall a b, key_eqb a b = true <-> a = b.
Proof. intros [i a] [j b]. unfold key_eqb. cbn [fst snd]. rewrite andb_true_iff, nb_ok. split; [intros [H ->]; f_equal; lia | intro H; injection H as -> ->; split; [apply Z.eqb_refl|reflexivity]]. Qed.
Lemma find_app : forall t u k, find (t ++ u) k = match find t k with Some c => Some c | None => find u k end.
Proof. intros t u k; induction t as [|[j c] r IH]; cbn [app find]; [reflexivity|]. destruct (key_eqb j k); auto. Qed.
Lemma find_insert : forall t k c j, find (insert t k c) j = if key_eqb k j then match find t k with Some d => Some d | None => Some c end else find t j.
Proof.
  intros t k c j. unfold insert. destruct (find t k) as [d|] eqn:F.
  - destruct (key_eqb k j) eqn:E; [apply key_ok in E; subst; exact F|reflexivity].
  - rewrite find_app. cbn [find]. destruct (key_eqb k j) eqn:E; [apply key_ok in E; subst; rewrite F; reflexivity|]. destruct (find t j); reflexivity.
Qed.
Fixpoint first_of (vals : list (option (option Z * Z))) (nb : option Z) : option Z :=
  match vals with
  | [] => None
  | Some (n, c) :: r => if nb_eqb n nb then Some c else first_of r nb
  | None :: r => first_of r nb
  end.
Lemma first_gives : forall vals nb c, first_of vals nb = Some c <-> gives nb c vals.
Proof.
  intros vals nb c; induction vals as [|[[n d]|] r IH]; cbn [first_of].
  - split; [discriminate|]. intro H; inversion H.
  - destruct (nb_eqb n nb) eqn:E.
    + apply nb_ok in E. subst n. split; [intro H; injection H as ->; constructor|]. intro H. inversion H as [r0 E|v r0 N G]; subst; [reflexivity|]. exfalso. apply (N d). reflexivity.
    + rewrite IH. assert (NE : n <> nb) by (intro K; apply nb_ok in K; congruence). split; [intro H; apply gives_later; [intros e K; injection K as K _; contradiction|exact H]|]. intro H. inversion H as [r0 E0|v r0 N G]; subst; [contradiction|exact G].
  - rewrite IH. split; [intro H; apply gives_later; [discriminate|exact H]|]. intro H. inversion H; subst; assumption.
Qed.
Lemma add_vals_find : forall vals i t j nb, find (add_vals i t vals) (j, nb) = if j =? i then match find t (i, nb) with Some c => Some c | None => first_of vals nb end else find t (j, nb).
Proof.
  intros vals i; induction vals as [|[[n c]|] r IH]; intros t j nb; unfold add_vals in *; cbn [fold_left first_of].
  - destruct (Z.eqb_spec j i) as [->|]; [destruct (find t (i, nb)); reflexivity|reflexivity].
  - rewrite IH, !find_insert. unfold key_eqb. cbn [fst snd]. rewrite Z.eqb_refl. cbn [andb]. destruct (Z.eqb_spec j i) as [->|NE].
    + destruct (nb_eqb n nb) eqn:E; [|reflexivity]. apply nb_ok in E. subst n. destruct (find t (i, nb)); reflexivity.
    + replace (i =? j) with false by lia. reflexivity.
  - rewrite IH. reflexivity.
Qed.
Lemma find_filter : forall t i j nb, find (filter (fun e : key * Z => negb (fst (fst e) =? i)) t) (j, nb) = if j =? i then None else find t (j, nb).
Proof.
  intros t i j nb; induction t as [|[[a b] c] r IH]; cbn [filter find fst]; [destruct (j =? i); reflexivity|].
  destruct (Z.eqb_spec a i) as [->|NE]; cbn [negb].
  - rewrite IH. unfold key_eqb. cbn [fst snd]. destruct (Z.eqb_spec j i) as [->|NE]; [reflexivity|]. replace (i =? j) with false by lia. reflexivity.
  - cbn [find]. unfold key_eqb. cbn [fst snd]. rewrite IH. destruct (Z.eqb_spec j i) as [->|NE2]; [|reflexivity]. replace (a =? i) with false by lia. reflexivity.
Qed.
Lemma last_config_app : forall os i cur o, last_config (os ++ [o]) i cur = match o with Config j v => if j =? i then v else last_config os i cur | _ => last_config os i cur end.
Proof.
  intros os i; induction os as [|a r IH]; intros cur o; cbn [app last_config]; [destruct o; reflexivity|]. destruct a; apply IH.
Qed.
Lemma run_app : forall a b s, run (a ++ b) s = run b (run a s).
Proof. intros. unfold run. apply fold_left_app. Qed.
Lemma table_ok : forall os i nb, find (s_table (run os init)) (i, nb) = first_of (last_config os i []) nb.
Proof.
  intros os; induction os as [|o os IH] using rev_ind; intros i nb; [reflexivity|]. rewrite run_app, last_config_app. unfold run at 1. cbn [fold_left].
  destruct o as [j vals| | | |]; cbn [step s_table]; try apply IH.
  - rewrite add_vals_find, !find_filter, Z.eqb_refl. destruct (Z.eqb_spec i j) as [->|NE]; [rewrite Z.eqb_refl; reflexivity|]. replace (j =? i) with false by lia. apply IH.
  - destruct (s_timer (run os init)); apply IH.
Qed.

(** * C147: the metric of a link is the one configured for it *)

(** the partner is known, if there is one *)
Definition partner_known (l : link) : Prop := l_dual l <> Some None.
Lemma set_right : forall os l, l_orig l <> None -> partner_known l -> right_metric os (set_linkcost (s_table (run os init)) l).
Proof.
  intros os l NO PK. unfold set_linkcost. destruct (l_orig l) as [o|] eqn:O; [|contradiction]. clear NO.
  set (t := s_table (run os init)).
  assert (F : forall i nb c, find t (i, nb) = Some c <-> configured os i nb c) by (intros; unfold t, configured; rewrite table_ok; apply first_gives).
  assert (N : forall i nb, find t (i, nb) = None -> forall c, ~ configured os i nb c) by (intros i nb E c K; apply F in K; congruence).
  set (l' := fun c => {| l_id := l_id l; l_if := l_if l; l_orig := Some o; l_dual := l_dual l; l_in := c |}).
  (* what is meant for the link *)
  assert (M : forall c i nb r, meant (l' c) i nb r -> (r = 0 /\ i = l_if l /\ nb = Some o) \/ (r = 1 /\ i = l_if l /\ l_dual l = Some nb) \/ (r = 2 /\ i = any /\ nb = Some o) \/ (r = 3 /\ i = any /\ l_dual l = Some nb) \/ (r = 4 /\ i = l_if l /\ nb = None) \/ (r = 5 /\ i = any /\ nb = None)).
  { intros c i nb r H. unfold meant in H. cbn [l' l_if l_orig l_dual] in H. destruct r as [|[[q|[q|q|]|]|[q|[q|q|]|]|]|q]; try contradiction; try tauto. }
  assert (GOOD : forall c i nb r, find t (i, nb) = Some c -> meant (l' c) i nb r -> (forall i' nb' r', meant (l' c) i' nb' r' -> r' < r -> find t (i', nb') = None) -> right_metric os (l' c)).
  { intros c i nb r E ME LE. left. exists i, nb, c, r. split; [apply F; exact E|]. split; [exact ME|]. split; [reflexivity|]. intros i' nb' c' r' C' M'. destruct (Z_lt_le_dec r' r) as [L|L]; [|exact L]. exfalso. exact (N _ _ (LE _ _ _ M' L) c' C'). }
  change (right_metric os (l' match cost_of t l o with Some c => c | None => INFINITE end)). unfold cost_of.
  destruct (find t (l_if l, Some o)) as [c|] eqn:E0; cbn [or_else].
  { apply (GOOD c (l_if l) (Some o) 0 E0); [cbn; repeat split; discriminate|]. intros i' nb' r' M' L. apply M in M'. lia. }
  destruct (l_dual l) as [[p|]|] eqn:D; [|exfalso; apply PK; exact D|].
  - destruct (find t (l_if l, Some p)) as [c|] eqn:E1; cbn [or_else].
    { apply (GOOD c (l_if l) (Some p) 1 E1); [cbn; try rewrite D; repeat split; discriminate|]. intros i' nb' r' M' L. apply M in M'. destruct M' as [(-> & -> & ->)|M']; [exact E0|lia]. }
    destruct (find t (any, Some o)) as [c|] eqn:E2; cbn [or_else].
    { apply (GOOD c any (Some o) 2 E2); [cbn; repeat split; discriminate|]. intros i' nb' r' M' L. apply M in M'. destruct M' as [(-> & -> & ->)|[(-> & -> & M')|M']]; [exact E0|injection M' as <-; exact E1|lia]. }
    destruct (find t (any, Some p)) as [c|] eqn:E3; cbn [or_else].
    { apply (GOOD c any (Some p) 3 E3); [cbn; try rewrite D; repeat split; discriminate|]. intros i' nb' r' M' L. apply M in M'. destruct M' as [(-> & -> & ->)|[(-> & -> & M')|[(-> & -> & ->)|M']]]; [exact E0|injection M' as <-; exact E1|exact E2|lia]. }
    destruct (find t (l_if l, None)) as [c|] eqn:E4; cbn [or_else].
    { apply (GOOD c (l_if l) None 4 E4); [cbn; auto|]. intros i' nb' r' M' L. apply M in M'. destruct M' as [(-> & -> & ->)|[(-> & -> & M')|[(-> & -> & ->)|[(-> & -> & M')|M']]]]; [exact E0|injection M' as <-; exact E1|exact E2|injection M' as <-; exact E3|lia]. }
    destruct (find t (any, None)) as [c|] eqn:E5.
    { apply (GOOD c any None 5 E5); [cbn; auto|]. intros i' nb' r' M' L. apply M in M'. destruct M' as [(-> & -> & ->)|[(-> & -> & M')|[(-> & -> & ->)|[(-> & -> & M')|[(-> & -> & ->)|M']]]]]; [exact E0|injection M' as <-; exact E1|exact E2|injection M' as <-; exact E3|exact E4|lia]. }
    right. split; [reflexivity|]. intros i nb c r C M'. apply M in M'. destruct M' as [(-> & -> & ->)|[(-> & -> & M')|[(-> & -> & ->)|[(-> & -> & M')|[(-> & -> & ->)|(-> & -> & ->)]]]]]; try (injection M' as <-); refine (N _ _ _ _ C); assumption.
  - cbn [or_else]. destruct (find t (any, Some o)) as [c|] eqn:E2; cbn [or_else].
    { apply (GOOD c any (Some o) 2 E2); [cbn; repeat split; discriminate|]. intros i' nb' r' M' L. apply M in M'. destruct M' as [(-> & -> & ->)|[(-> & -> & M')|M']]; [exact E0|discriminate|lia]. }
    destruct (find t (l_if l, None)) as [c|] eqn:E4; cbn [or_else].
    { apply (GOOD c (l_if l) None 4 E4); [cbn; auto|]. intros i' nb' r' M' L. apply M in M'. destruct M' as [(-> & -> & ->)|[(-> & -> & M')|[(-> & -> & ->)|[(-> & -> & M')|M']]]]; [exact E0|discriminate|exact E2|discriminate|lia]. }
    destruct (find t (any, None)) as [c|] eqn:E5.
    { apply (GOOD c any None 5 E5); [cbn; auto|]. intros i' nb' r' M' L. apply M in M'. destruct M' as [(-> & -> & ->)|[(-> & -> & M')|[(-> & -> & ->)|[(-> & -> & M')|[(-> & -> & ->)|M']]]]]; [exact E0|discriminate|exact E2|discriminate|exact E4|lia]. }
    right. split; [reflexivity|]. intros i nb c r C M'. apply M in M'. destruct M' as [(-> & -> & ->)|[(-> & -> & M')|[(-> & -> & ->)|[(-> & -> & M')|[(-> & -> & ->)|(-> & -> & ->)]]]]]; try discriminate; refine (N _ _ _ _ C); assumption.
Qed.

(** In every history in which links keep their originator and partner, whenever the timer
    does not run every link with known originator (and known partner) has the metric that
    is configured for it.  The full claim, for changing originators and unknown partners,
    is refuted below. *)
Definition no_change (o : op) : Prop := match o with Change _ _ _ => False | _ => True end.
Theorem C147_metric_partial : forall os l, Forall no_change os -> s_timer (run os init) = false -> In l (s_links (run os init)) -> l_orig l <> None -> partner_known l -> right_metric os l.
Proof.
  assert (G : forall os, Forall no_change os -> s_timer (run os init) = false -> forall l, In l (s_links (run os init)) -> l_orig l <> None -> partner_known l -> right_metric os l).
  { intros os; induction os as [|o os IH] using rev_ind; intros NC T l I1 NO PK; [destruct I1|].
    apply Forall_app in NC. destruct NC as [NC NO1]. apply Forall_inv in NO1. rewrite run_app in T, I1. unfold run at 1 in T. unfold run at 1 in I1. cbn [fold_left] in T, I1.
    assert (SAME : match o with Config _ _ => False | _ => True end -> forall l, right_metric os l -> right_metric (os ++ [o]) l).
    { intros NCF m R. assert (E : forall i nb c, configured (os ++ [o]) i nb c <-> configured os i nb c) by (intros; unfold configured; rewrite last_config_app; destruct o; try reflexivity; contradiction).
      destruct R as [(i & nb & c & r & C & M & V & B)|(V & B)]; [left; exists i, nb, c, r; rewrite E; repeat split; auto; intros; eapply B; [apply E|]; eauto | right; split; [exact V|]; intros; eapply B; apply E; eauto]. }
    destruct o as [j vals|id i o d|id|id o d|]; cbn [step s_timer s_links] in *; try discriminate; try contradiction.
    - apply filter_In in I1. apply SAME; [exact Logic.I|]. apply IH; tauto.
    - destruct (s_timer (run os init)) eqn:TT.
      + cbn [s_links] in I1. apply in_map_iff in I1. destruct I1 as (m & <- & I1). apply SAME; [exact Logic.I|]. apply set_right.
        * unfold set_linkcost in NO. destruct (l_orig m) eqn:E; [discriminate|]. contradiction.
        * unfold partner_known, set_linkcost in *. destruct (l_orig m); exact PK.
      + apply SAME; [exact Logic.I|]. apply IH; auto. }
  intros os l NC T I1 NO PK. apply G; auto.
Qed.
(** right after the timer fired this holds in every history *)
Theorem C147_after_timer_partial : forall os l, s_timer (run os init) = true -> In l (s_links (run (os ++ [Fire]) init)) -> l_orig l <> None -> partner_known l -> right_metric os l.
Proof.
  intros os l T I1 NO PK. rewrite run_app in I1. unfold run at 1 in I1. cbn [fold_left step] in I1. rewrite T in I1. cbn [s_links] in I1. apply in_map_iff in I1. destruct I1 as (m & <- & I1). apply set_right.
  - unfold set_linkcost in NO. destruct (l_orig m) eqn:E; [discriminate|]. contradiction.
  - unfold partner_known, set_linkcost in *. destruct (l_orig m); exact PK.
Qed.

Definition conf1 : list op := [Config 1 [Some (Some 77, 5); None; Some (None, 9); Some (Some 77, 6)]; Config any [Some (Some 88, 3)]].
Example C147_ex : map l_in (s_links (run (conf1 ++ [AddLink 10 1 (Some 77) None; AddLink 11 1 (Some 88) None; AddLink 12 1 (Some 99) None; AddLink 13 2 (Some 99) None; AddLink 14 2 (Some 99) (Some (Some 88)); Fire]) init)) = [5; 3; 9; INFINITE; 3] /\
  s_timer (run (conf1 ++ [AddLink 10 1 (Some 77) None; Fire]) init) = false /\ Forall no_change (conf1 ++ [AddLink 10 1 (Some 77) None; Fire]).
Proof. split; [vm_compute; reflexivity|]. split; [reflexivity|]. repeat constructor. Qed.
(** the neighbor changes its originator: the link keeps the metric of the old one *)
Theorem C147_originator_refuted : exists os l, s_timer (run os init) = false /\ In l (s_links (run os init)) /\ l_orig l = Some 78 /\ l_dual l = None /\ ~ right_metric os l /\
  os = [Config 1 [Some (Some 77, 5); Some (Some 78, 60)]; AddLink 10 1 (Some 77) None; Fire; Change 10 (Some 78) None; Fire].
Proof.
  do 2 eexists. split; [|split; [|split; [|split; [|split; [|reflexivity]]]]]; [vm_compute; reflexivity|left; vm_compute; reflexivity|reflexivity|reflexivity|].
  intros [(i & nb & c & r & C & M & V & B)|(V & _)]; [|cbn in V; discriminate]. cbn [l_in] in V. subst c.
  assert (C60 : configured [Config 1 [Some (Some 77, 5); Some (Some 78, 60)]; AddLink 10 1 (Some 77) None; Fire; Change 10 (Some 78) None; Fire] 1 (Some 78) 60) by (unfold configured; cbn [last_config]; apply first_gives; reflexivity).
  specialize (B 1 (Some 78) 60 0 C60 ltac:(cbn; repeat split; discriminate)).
  assert (r = 0) as ->. { unfold meant in M. destruct r as [|q|q]; [reflexivity|lia|contradiction]. }
  cbn in M. destruct M as (-> & _ & ->). unfold configured in C. cbn [last_config] in C. apply first_gives in C. vm_compute in C. discriminate.
Qed.
(** the partner has no known originator: the entry of the interface for all neighbors goes
    before the entry for this neighbor on any interface *)
Theorem C147_partner_refuted : exists os l, Forall no_change os /\ s_timer (run os init) = false /\ In l (s_links (run os init)) /\ l_orig l = Some 77 /\ ~ right_metric os l /\
  os = [Config 1 [Some (None, 9)]; Config any [Some (Some 77, 5)]; AddLink 10 1 (Some 77) (Some None); Fire].
Proof.
  do 2 eexists. split; [|split; [|split; [|split; [|split; [|reflexivity]]]]]; [repeat constructor|vm_compute; reflexivity|left; vm_compute; reflexivity|reflexivity|].
  intros [(i & nb & c & r & C & M & V & B)|(V & _)]; [|cbn in V; discriminate]. cbn [l_in] in V. subst c.
  assert (C5 : configured [Config 1 [Some (None, 9)]; Config any [Some (Some 77, 5)]; AddLink 10 1 (Some 77) (Some None); Fire] any (Some 77) 5) by (unfold configured; cbn; apply first_gives; reflexivity).
  specialize (B any (Some 77) 5 2 C5 ltac:(cbn; repeat split; discriminate)).
  unfold configured in C. apply first_gives in C.
  unfold meant in M. cbn [l_if l_orig l_dual] in M. destruct r as [|[[q|[q|q|]|]|[q|[q|q|]|]|]|q]; try contradiction; try lia.
  - destruct M as (-> & _ & ->). vm_compute in C. discriminate.
  - destruct M as (-> & _ & ->). vm_compute in C. discriminate.
  - destruct M as (-> & K & E). injection E as <-. contradiction.
Qed.

Print Assumptions C147_metric_partial.
Print Assumptions C147_after_timer_partial.
Print Assumptions C147_originator_refuted.
Print Assumptions C147_partner_refuted.
