(** Proofs about the route calculation, part 1: the working queue, safety and
    termination. *)
From Coq Require Import Sorting.Sorted.
From Verif Require Import Base DijkstraModel DijkstraSpec.

Lemma target_eqb_eq x y : target_eqb x y = true <-> x = y.
Proof.
  destruct x as [a|a], y as [b|b]; cbn; split; intros H; try discriminate;
    try (apply Z.eqb_eq in H; subst; reflexivity); inversion H; apply Z.eqb_refl.
Qed.
Lemma target_eqb_refl x : target_eqb x x = true.
Proof. now apply target_eqb_eq. Qed.
Lemma target_eqb_neq x y : x <> y -> target_eqb x y = false.
Proof.
  intros H. destruct (target_eqb x y) eqn:E; [|reflexivity].
  apply target_eqb_eq in E; contradiction.
Qed.
Lemma target_eq_dec (x y : target) : {x = y} + {x <> y}.
Proof.
  destruct (target_eqb x y) eqn:E; [left; now apply target_eqb_eq|right; intros ->].
  now rewrite target_eqb_refl in E.
Qed.

Lemma set_dn_same f t d : set_dn f t d t = d.
Proof. unfold set_dn. now rewrite target_eqb_refl. Qed.
Lemma set_dn_other f t d x : x <> t -> set_dn f t d x = f x.
Proof. intros H. unfold set_dn. now rewrite (target_eqb_neq x t H). Qed.

Lemma wq_mem_In t q : wq_mem t q = true <-> In t q.
Proof.
  unfold wq_mem. rewrite existsb_exists. split.
  - intros (x & Hx & E). apply target_eqb_eq in E; subst; exact Hx.
  - intros H. exists t; split; [exact H|apply target_eqb_refl].
Qed.

Lemma wq_insert_In f t q x : In x (wq_insert f t q) <-> x = t \/ In x q.
Proof.
  induction q as [|y q IH]; cbn [wq_insert].
  - cbn. intuition.
  - destruct (d_cost (f y) <=? d_cost (f t)); cbn [In]; [rewrite IH|]; intuition.
Qed.

Lemma wq_insert_NoDup f t q : NoDup q -> ~ In t q -> NoDup (wq_insert f t q).
Proof.
  induction q as [|y q IH]; intros N NI; cbn [wq_insert].
  - constructor; [easy|constructor].
  - inversion N as [|? ? Ny Nq]; subst.
    destruct (d_cost (f y) <=? d_cost (f t)).
    + constructor.
      * rewrite wq_insert_In. intros [->|H]; [apply NI; now left|contradiction].
      * apply IH; [exact Nq|intros H; apply NI; now right].
    + constructor; [exact NI|exact N].
Qed.

Definition sorted_wq (f : target -> dnode) : list target -> Prop :=
  StronglySorted (fun x y => d_cost (f x) <= d_cost (f y)).

Lemma wq_insert_sorted f t q : sorted_wq f q -> sorted_wq f (wq_insert f t q).
Proof.
  unfold sorted_wq.
  induction q as [|y q IH]; intros H; cbn [wq_insert].
  - constructor; constructor.
  - inversion H as [|? ? Hq Hy]; subst.
    destruct (Z.leb_spec (d_cost (f y)) (d_cost (f t))) as [L|L].
    + constructor; [now apply IH|].
      rewrite Forall_forall in *. intros x Hx. apply wq_insert_In in Hx as [->|Hx]; auto.
    + constructor; [exact H|].
      constructor; [lia|]. rewrite Forall_forall in *. intros x Hx. specialize (Hy x Hx). lia.
Qed.

Lemma sorted_wq_ext f g q :
  (forall x, In x q -> d_cost (f x) = d_cost (g x)) -> sorted_wq f q -> sorted_wq g q.
Proof.
  unfold sorted_wq. induction q as [|y q IH]; intros E H; [constructor|].
  inversion H as [|? ? Hq Hy]; subst. constructor.
  - apply IH; [intros x Hx; apply E; now right|exact Hq].
  - rewrite Forall_forall in *. intros x Hx.
    rewrite <- (E y), <- (E x); [apply Hy, Hx|now right|now left].
Qed.

Lemma sorted_wq_filter f p q : sorted_wq f q -> sorted_wq f (filter p q).
Proof.
  unfold sorted_wq. induction q as [|y q IH]; intros H; cbn [filter]; [constructor|].
  inversion H as [|? ? Hq Hy]; subst. destruct (p y); [|now apply IH].
  constructor; [now apply IH|]. rewrite Forall_forall in *.
  intros x Hx. apply filter_In in Hx as [Hx _]. auto.
Qed.

Lemma wq_remove_In t q x : In x (wq_remove t q) <-> In x q /\ x <> t.
Proof.
  unfold wq_remove. rewrite filter_In. split; intros [H1 H2]; split; auto.
  - intros ->. now rewrite target_eqb_refl in H2.
  - now rewrite (target_eqb_neq x t H2).
Qed.

Lemma NoDup_filter' {A} (p : A -> bool) l : NoDup l -> NoDup (filter p l).
Proof.
  induction l as [|x l IH]; intros H; cbn [filter]; [constructor|].
  inversion H; subst. destruct (p x); [constructor|]; auto.
  rewrite filter_In. tauto.
Qed.

(** What _insert_into_working_tree does. *)
Lemma relax_cases s t nb lc pc ph dist single last :
  let s' := insert_into_working_tree s t nb lc pc ph dist single last in
  (s' = s /\ (METRIC_MAX < lc \/ d_local (dn s t) = true \/ d_done (dn s t) = true \/
              (In t (wq s) /\ d_cost (dn s t) <= u32 (pc + lc))))
  \/ (lc <= METRIC_MAX /\ d_local (dn s t) = false /\ d_done (dn s t) = false /\
      (In t (wq s) -> u32 (pc + lc) < d_cost (dn s t)) /\
      dn s' = set_dn (dn s) t
                (DNode (u32 (pc + lc)) (u8 (ph + 1)) dist (Some nb) single last false false) /\
      (forall x, In x (wq s') <-> x = t \/ In x (wq s)) /\
      rt s' = rt s /\
      (NoDup (wq s) -> NoDup (wq s')) /\
      (sorted_wq (dn s) (wq s) -> sorted_wq (dn s') (wq s'))).
Proof.
  cbv zeta. unfold insert_into_working_tree.
  destruct (Z.ltb_spec METRIC_MAX lc) as [L|L]; [left; auto|].
  destruct (d_local (dn s t)) eqn:Dl; [left; cbn; auto|].
  destruct (d_done (dn s t)) eqn:Dd; [left; cbn; auto|].
  cbn [orb].
  destruct (wq_mem t (wq s)) eqn:M; cbn [andb].
  - destruct (Z.leb_spec (d_cost (dn s t)) (u32 (pc + lc))) as [C|C].
    + left. split; [reflexivity|]. right; right; right. split; [now apply wq_mem_In|exact C].
    + right. cbn [dn wq rt].
      repeat split; auto.
      * intros H. apply wq_insert_In in H as [->|H]; [now left|].
        apply wq_remove_In in H as [H _]. now right.
      * intros H. apply wq_insert_In. destruct (target_eq_dec x t) as [->|N]; [now left|].
        right. apply wq_remove_In. split; [|exact N]. destruct H; [contradiction|assumption].
      * intros N. apply wq_insert_NoDup; [now apply NoDup_filter'|].
        intros H. apply wq_remove_In in H as [_ H]. now apply H.
      * intros N. apply wq_insert_sorted.
        apply (sorted_wq_ext (dn s)); [|now apply sorted_wq_filter].
        intros x Hx. apply wq_remove_In in Hx as [_ Hx]. now rewrite set_dn_other.
  - right. assert (NI : ~ In t (wq s)) by (intros H; apply wq_mem_In in H; congruence).
    cbn [dn wq rt]. repeat split; auto.
    + intros H; contradiction.
    + intros H. now apply wq_insert_In in H.
    + intros H. now apply wq_insert_In.
    + intros N. now apply wq_insert_NoDup.
    + intros N. apply wq_insert_sorted.
      apply (sorted_wq_ext (dn s)); [|exact N].
      intros x Hx. rewrite set_dn_other; [reflexivity|]. intros ->; contradiction.
Qed.

Section Safety.
  Context (ev : env) (tp : topo) (nbs : list neigh) (af : Z) (nss ss : bool).
  Context (TK : topo_ok ev tp).

  Definition all_targets : list target :=
    map TNode (map tn_orig (tp_nodes tp)) ++ map TEnd (map te_key (tp_ends tp)).

  Record safe (s : dstate) : Prop := {
    sf_nodup : NoDup (wq s);
    sf_in : forall t, In t (wq s) -> In t all_targets;
    sf_open : forall t, In t (wq s) -> d_done (dn s t) = false;
    sf_first : forall t, In t (wq s) -> d_first (dn s t) <> None;
    sf_heavy : forall k, In (TEnd k) (wq s) -> 1 < att_count tp k }.

  Lemma find_node_In a : In a (map tn_orig (tp_nodes tp)) ->
    exists n, find_node tp a = Some n /\ In n (tp_nodes tp) /\ tn_orig n = a.
  Proof.
    intros H. unfold find_node.
    destruct (find (fun n => tn_orig n =? a) (tp_nodes tp)) as [n|] eqn:E.
    - apply find_some in E as [E1 E2]. apply Z.eqb_eq in E2. eauto.
    - apply in_map_iff in H as (n & <- & Hn).
      apply (find_none _ _ E) in Hn. now rewrite Z.eqb_refl in Hn.
  Qed.

  Lemma find_node_unique n : In n (tp_nodes tp) -> find_node tp (tn_orig n) = Some n.
  Proof.
    unfold find_node. pose proof (tk_nodes ev tp TK) as N. revert N.
    induction (tp_nodes tp) as [|x l IH]; intros N; cbn [find map In]; [tauto|].
    inversion N as [|? ? N1 N2]; subst.
    intros [->|Hn]; [now rewrite Z.eqb_refl|].
    destruct (Z.eqb_spec (tn_orig x) (tn_orig n)) as [E|E]; [|now apply IH].
    exfalso. apply N1. rewrite E. now apply in_map.
  Qed.

  Lemma find_end_In k : In k (map te_key (tp_ends tp)) ->
    exists e, find_end tp k = Some e /\ In e (tp_ends tp).
  Proof.
    intros H. unfold find_end.
    destruct (find (fun n => te_key n =? k) (tp_ends tp)) as [n|] eqn:E.
    - apply find_some in E as [E1 E2]. eauto.
    - apply in_map_iff in H as (n & <- & Hn).
      apply (find_none _ _ E) in Hn. now rewrite Z.eqb_refl in Hn.
  Qed.

  Lemma in_all_node a : In (TNode a) all_targets <-> In a (map tn_orig (tp_nodes tp)).
  Proof.
    unfold all_targets. rewrite in_app_iff. split.
    - intros [H|H]; apply in_map_iff in H as (x & E & H); [now inversion E; subst|discriminate].
    - intros H. left. now apply in_map.
  Qed.
  Lemma in_all_end k : In (TEnd k) all_targets <-> In k (map te_key (tp_ends tp)).
  Proof.
    unfold all_targets. rewrite in_app_iff. split.
    - intros [H|H]; apply in_map_iff in H as (x & E & H); [discriminate|now inversion E; subst].
    - intros H. right. now apply in_map.
  Qed.

  Definition open_count (s : dstate) : nat :=
    length (filter (fun t => negb (d_done (dn s t))) all_targets).

  Definition done_le (s s' : dstate) : Prop :=
    forall t, d_done (dn s t) = true -> d_done (dn s' t) = true.

  Lemma filter_length_le {A} (p q : A -> bool) l :
    (forall x, In x l -> p x = true -> q x = true) ->
    (length (filter p l) <= length (filter q l))%nat.
  Proof.
    induction l as [|x l IH]; intros H; cbn [filter length]; [lia|].
    pose proof (IH (fun y Hy => H y (or_intror Hy))) as I.
    pose proof (H x (or_introl eq_refl)) as Hx.
    destruct (p x), (q x); cbn [length]; lia.
  Qed.
  Lemma filter_length_lt {A} (p q : A -> bool) l y :
    (forall x, In x l -> p x = true -> q x = true) -> In y l -> p y = false -> q y = true ->
    (length (filter p l) < length (filter q l))%nat.
  Proof.
    induction l as [|x l IH]; intros H Hy Py Qy; cbn [filter length]; [destruct Hy|].
    destruct Hy as [->|Hy].
    - rewrite Py, Qy. cbn [length].
      pose proof (filter_length_le p q l (fun y Hy => H y (or_intror Hy))). lia.
    - pose proof (IH (fun y Hy => H y (or_intror Hy)) Hy Py Qy) as I.
      pose proof (H x (or_introl eq_refl)) as Hx.
      destruct (p x), (q x); cbn [length]; lia.
  Qed.

  Lemma open_le s s' : done_le s s' -> (open_count s' <= open_count s)%nat.
  Proof.
    intros H. apply filter_length_le. intros x _ P.
    destruct (d_done (dn s x)) eqn:E; [|reflexivity].
    apply H in E. now rewrite E in P.
  Qed.

  Lemma done_le_refl s : done_le s s.
  Proof. now intros t. Qed.
  Lemma done_le_trans a b c : done_le a b -> done_le b c -> done_le a c.
  Proof. intros H1 H2 t H. auto. Qed.

  (** Traces of route updates. *)
  Definition rtrace (Q : rargs -> Prop) (s s' : dstate) : Prop :=
    exists os, rt s' = fold_left (update_routing_entry ev) os (rt s) /\ Forall Q os.
  Lemma rtrace_refl Q s : rtrace Q s s.
  Proof. now exists []. Qed.
  Lemma rtrace_same Q s s' : rt s' = rt s -> rtrace Q s s'.
  Proof. intros E. now exists []. Qed.
  Lemma rtrace_trans Q a b c : rtrace Q a b -> rtrace Q b c -> rtrace Q a c.
  Proof.
    intros (o1 & E1 & F1) (o2 & E2 & F2). exists (o1 ++ o2).
    rewrite fold_left_app, <- E1. split; [exact E2|now apply Forall_app].
  Qed.

  Definition offer_ok (o : rargs) : Prop := nss = false -> 0 < ev_srclen ev (ra_key o).

  Definition good_step (s s' : dstate) : Prop :=
    safe s' /\ done_le s s' /\ rtrace offer_ok s s'.

  Lemma good_refl s : safe s -> good_step s s.
  Proof. intros H. split; [exact H|split; [apply done_le_refl|apply rtrace_refl]]. Qed.
  Lemma good_trans a b c : good_step a b -> good_step b c -> good_step a c.
  Proof.
    intros (_ & D1 & R1) (S2 & D2 & R2).
    split; [exact S2|split; [eapply done_le_trans; eauto|eapply rtrace_trans; eauto]].
  Qed.

  Lemma relax_safe s t nb lc pc ph dist single last :
    safe s -> In t all_targets -> (forall k, t = TEnd k -> 1 < att_count tp k) ->
    good_step s (insert_into_working_tree s t nb lc pc ph dist single last).
  Proof.
    intros SF IT HV. destruct (relax_cases s t nb lc pc ph dist single last)
      as [[-> _]|(_ & _ & Dd & _ & Edn & Ewq & Ert & ND & _)]; [now apply good_refl|].
    set (s' := insert_into_working_tree s t nb lc pc ph dist single last) in *.
    split; [|split].
    - constructor.
      + apply ND, (sf_nodup _ SF).
      + intros x Hx. apply Ewq in Hx as [->|Hx]; [exact IT|now apply (sf_in _ SF)].
      + intros x Hx. rewrite Edn. destruct (target_eq_dec x t) as [->|N].
        * now rewrite set_dn_same.
        * rewrite set_dn_other by exact N. apply (sf_open _ SF).
          apply Ewq in Hx as [->|Hx]; [contradiction|exact Hx].
      + intros x Hx. rewrite Edn. destruct (target_eq_dec x t) as [->|N].
        * now rewrite set_dn_same.
        * rewrite set_dn_other by exact N. apply (sf_first _ SF).
          apply Ewq in Hx as [->|Hx]; [contradiction|exact Hx].
      + intros k Hx. apply Ewq in Hx as [Hx|Hx]; [now apply HV|now apply (sf_heavy _ SF)].
    - intros x Hx. rewrite Edn. destruct (target_eq_dec x t) as [->|N]; [congruence|].
      now rewrite set_dn_other.
    - now apply rtrace_same.
  Qed.

  Lemma fold_good {A} (f : dstate -> A -> dstate) l :
    (forall s x, In x l -> safe s -> good_step s (f s x)) ->
    forall s, safe s -> good_step s (fold_left f l s).
  Proof.
    induction l as [|x l IH]; intros H s SF; cbn [fold_left]; [now apply good_refl|].
    pose proof (H s x (or_introl eq_refl) SF) as G.
    eapply good_trans; [exact G|]. apply IH; [|apply G].
    intros s1 y Hy. apply H. now right.
  Qed.

  Lemma one_hop_safe s : safe s -> good_step s (add_one_hop_nodes ev tp nbs af nss ss s).
  Proof.
    apply fold_good. clear s. intros s nb Hnb SF. unfold add_one_hop_node.
    destruct (negb (ev_fam ev (nb_orig nb) =? af)); [now apply good_refl|].
    destruct (nb_sym nb =? 0); [now apply good_refl|].
    destruct (find_node tp (nb_orig nb)) as [node|] eqn:F; [|now apply good_refl].
    destruct (negb nss && negb (tn_ss node && ss)); [now apply good_refl|].
    destruct ((METRIC_MAX <? nb_in nb) || (METRIC_MAX <? nb_out nb)); [now apply good_refl|].
    apply relax_safe; [exact SF| |discriminate].
    apply in_all_node. apply find_some in F as [F1 F2]. apply Z.eqb_eq in F2.
    rewrite <- F2. now apply in_map.
  Qed.

  Lemma edge_safe node d first s e : In node (tp_nodes tp) -> In e (tn_edges node) ->
    safe s -> good_step s (handle_edge nss ev node d first s e).
  Proof.
    intros Hn He SF. unfold handle_edge.
    destruct (negb (e_virtual e) && (e_cost e <=? METRIC_MAX)); [|now apply good_refl].
    destruct (negb nss && negb (tn_ss node)); [now apply good_refl|].
    apply relax_safe; [exact SF| |discriminate].
    apply in_all_node. apply (tk_edge ev tp TK node e Hn He).
  Qed.

  Lemma att_safe node d first s a : In node (tp_nodes tp) -> In a (tn_atts node) ->
    safe s -> good_step s (handle_att nss ss ev tp node d first s a).
  Proof.
    intros Hn Ha SF. unfold handle_att.
    destruct (a_cost a <=? METRIC_MAX); [|now apply good_refl].
    destruct (negb (if 0 <? ev_srclen ev (a_dst a) then ss else nss)) eqn:W; [now apply good_refl|].
    destruct (Z.ltb_spec 1 (att_count tp (a_dst a))) as [C|C].
    - apply relax_safe; [exact SF| |now intros k [= <-]].
      apply in_all_end. apply (tk_att ev tp TK node a Hn Ha).
    - split; [|split].
      + constructor; cbn [wq dn]; try apply SF.
        * intros t Ht. destruct (target_eq_dec t (TEnd (a_dst a))) as [->|N].
          -- pose proof (sf_heavy _ SF _ Ht). lia.
          -- rewrite set_dn_other by exact N. now apply (sf_open _ SF).
        * intros t Ht. destruct (target_eq_dec t (TEnd (a_dst a))) as [->|N].
          -- pose proof (sf_heavy _ SF _ Ht). lia.
          -- rewrite set_dn_other by exact N. now apply (sf_first _ SF).
      + intros t Ht. cbn [dn]. destruct (target_eq_dec t (TEnd (a_dst a))) as [->|N].
        * now rewrite set_dn_same.
        * now rewrite set_dn_other.
      + eexists [_]. split; [reflexivity|]. repeat constructor. intros E. cbn [ra_key].
        rewrite E in W. destruct (Z.ltb_spec 0 (ev_srclen ev (a_dst a))); [lia|discriminate].
  Qed.

  Lemma pop_safe s : safe s -> wq s <> [] ->
    exists s', handle_working_queue ev tp nss ss s = Some s' /\ safe s' /\ done_le s s' /\
      (open_count s' < open_count s)%nat /\ rtrace offer_ok s s'.
  Proof.
    intros SF NE. unfold handle_working_queue.
    destruct (wq s) as [|t q] eqn:Q; [contradiction|]. clear NE.
    assert (Ht : In t (wq s)) by (rewrite Q; now left).
    pose proof (sf_first _ SF t Ht) as F. destruct (d_first (dn s t)) as [first|] eqn:DF; [|contradiction].
    clear F.
    set (d' := DNode (d_cost (dn s t)) (d_hops (dn s t)) (d_dist (dn s t)) (Some first)
                 (d_single (dn s t)) (d_last (dn s t)) (d_local (dn s t)) true).
    set (r := if nss then _ else rt s).
    set (s1 := DState (set_dn (dn s) t d') q r).
    pose proof (sf_nodup _ SF) as ND. rewrite Q in ND. inversion ND as [|? ? NI ND']; subst.
    assert (S1 : safe s1).
    { unfold s1. constructor; cbn [wq dn].
      - exact ND'.
      - intros x Hx. apply (sf_in _ SF). rewrite Q. now right.
      - intros x Hx. rewrite set_dn_other by (intros ->; contradiction).
        apply (sf_open _ SF). rewrite Q. now right.
      - intros x Hx. rewrite set_dn_other by (intros ->; contradiction).
        apply (sf_first _ SF). rewrite Q. now right.
      - intros k Hk. apply (sf_heavy _ SF). rewrite Q. now right. }
    assert (D1 : done_le s s1).
    { intros x Hx. unfold s1; cbn [dn]. destruct (target_eq_dec x t) as [->|N].
      - now rewrite set_dn_same.
      - now rewrite set_dn_other. }
    assert (O1 : (open_count s1 < open_count s)%nat).
    { apply filter_length_lt with (y := t).
      - intros x _ P. destruct (d_done (dn s x)) eqn:E; [|reflexivity].
        apply D1 in E. now rewrite E in P.
      - apply (sf_in _ SF), Ht.
      - unfold s1; cbn [dn]. rewrite set_dn_same. reflexivity.
      - now rewrite (sf_open _ SF t Ht). }
    assert (R1 : rtrace offer_ok s s1).
    { unfold s1, r. destruct nss eqn:N; [|now apply rtrace_same].
      eexists [_]. split; [reflexivity|]. repeat constructor. intros E. congruence. }
    assert (G : forall s', good_step s1 s' ->
              safe s' /\ done_le s s' /\ (open_count s' < open_count s)%nat /\ rtrace offer_ok s s').
    { intros s' (S' & D' & R'). split; [exact S'|]. split; [eapply done_le_trans; eauto|].
      split; [|eapply rtrace_trans; eauto]. pose proof (open_le _ _ D'). lia. }
    destruct t as [a|k].
    - destruct (find_node_In a) as (node & FN & HN & EN).
      { apply in_all_node, (sf_in _ SF), Ht. }
      rewrite FN. eexists. split; [reflexivity|]. apply G.
      assert (GE : good_step s1 (fold_left (handle_edge nss ev node d' first) (tn_edges node) s1)).
      { apply fold_good; [|exact S1]. intros s2 e He S2. apply edge_safe; assumption. }
      eapply good_trans; [exact GE|].
      apply fold_good; [|apply GE]. intros s2 x Hx S2. apply att_safe; assumption.
    - exists s1. split; [reflexivity|]. apply G, good_refl, S1.
  Qed.

  (** The loop ends; what each step preserves holds at the end. *)
  Lemma loop_inv (Inv : dstate -> Prop)
    (ST : forall s s', safe s -> wq s <> [] -> Inv s ->
            handle_working_queue ev tp nss ss s = Some s' -> Inv s') :
    forall fuel s, safe s -> (open_count s <= fuel)%nat -> Inv s ->
    exists s', dijkstra_loop fuel ev tp nss ss s = Some s' /\ safe s' /\ wq s' = [] /\ Inv s' /\
      rtrace offer_ok s s' /\ done_le s s'.
  Proof.
    induction fuel as [|fuel IH]; intros s SF OC I; cbn [dijkstra_loop].
    - destruct (wq s) as [|t q] eqn:Q.
      + exists s. split; [reflexivity|]. split; [exact SF|]. split; [exact Q|]. split; [exact I|].
        split; [apply rtrace_refl|apply done_le_refl].
      + exfalso. destruct (pop_safe s SF) as (s' & _ & _ & _ & O & _); [rewrite Q; discriminate|lia].
    - destruct (wq s) as [|t q] eqn:Q.
      + exists s. split; [reflexivity|]. split; [exact SF|]. split; [exact Q|]. split; [exact I|].
        split; [apply rtrace_refl|apply done_le_refl].
      + assert (NE : wq s <> []) by (rewrite Q; discriminate).
        destruct (pop_safe s SF NE) as (s' & E & SF' & D & O & R). rewrite E.
        destruct (IH s' SF') as (s2 & E2 & S2 & Q2 & I2 & R2 & D2); [lia|apply (ST s s'); assumption|].
        exists s2. split; [exact E2|]. split; [exact S2|]. split; [exact Q2|]. split; [exact I2|].
        split; [eapply rtrace_trans; eauto|eapply done_le_trans; eauto].
  Qed.

  Lemma open_count_bound s : (open_count s <= length (tp_nodes tp) + length (tp_ends tp))%nat.
  Proof.
    unfold open_count. etransitivity; [apply (filter_length_le _ (fun _ => true)); auto|].
    assert (E : forall (l : list target), filter (fun _ => true) l = l)
      by (induction l as [|x l IHl]; cbn; congruence).
    rewrite E. unfold all_targets. rewrite app_length, !map_length. lia.
  Qed.

  (** Every run ends without a fault, with any metrics. *)
  Lemma run_safe s : wq s = [] ->
    exists s', run_dijkstra ev tp nbs af nss ss s = Some s' /\ wq s' = [] /\
      rtrace offer_ok s s'.
  Proof.
    intros Q. assert (SF : safe s).
    { constructor; rewrite Q; try (intros ? []). constructor. }
    destruct (one_hop_safe s SF) as (S1 & D1 & R1).
    destruct (loop_inv (fun _ => True)) with (fuel := (length (tp_nodes tp) + length (tp_ends tp))%nat)
      (s := add_one_hop_nodes ev tp nbs af nss ss s) as (s' & E & S' & Q' & _ & R' & _); auto.
    - apply open_count_bound.
    - exists s'. split; [exact E|]. split; [exact Q'|]. eapply rtrace_trans; eauto.
  Qed.
End Safety.
