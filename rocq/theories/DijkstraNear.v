(** Proofs about the route calculation, part 4: path costs fit into 32 bits
    in networks of realistic size; one table entry per key. *)
From Verif Require Import Base DijkstraModel DijkstraSpec DijkstraProofs DijkstraOpt DijkstraTable.

Section Near.
  Context (ev : env) (tp : topo) (nbs : list neigh) (TK : topo_ok ev tp) (NK : neighs_ok nbs).

  Lemma path_cost_hops af pl ss t w : path ev tp nbs af pl ss t w ->
    w_cost w <= w_hops w * METRIC_MAX.
  Proof.
    intros H. induction H as [nb F|node t c d w Hn HP IH L].
    - destruct F as (_ & _ & _ & _ & F & _). cbn [w_cost w_hops]. lia.
    - cbn [w_cost w_hops]. destruct L as [e He V E O W|a Ha E W]; lia.
  Qed.

  Lemma near_fit : near ev tp nbs -> costs_fit ev tp nbs.
  Proof.
    intros N af a w H. destruct (N af a w H) as (w' & H' & B). exists w'. split; [exact H'|].
    pose proof (path_cost_hops _ _ _ _ _ H') as C. unfold METRIC_MAX in *. lia.
  Qed.

  (** Paths without repeated nodes. *)
  Inductive simple (af : Z) : Z -> way -> list Z -> Prop :=
  | s_first nb : first_hop ev tp nbs af true true nb ->
      simple af (nb_orig nb) (Way nb (nb_out nb) 1 0 (ev_originator ev af)) [nb_orig nb]
  | s_link node a c d w l : In node (tp_nodes tp) -> simple af (tn_orig node) w l ->
      link ev true true node (TNode a) c d -> ~ In a l ->
      simple af a (Way (w_first w) (w_cost w + c) (w_hops w + 1) d
                     (ev_dst ev (ev_host ev (tn_orig node)))) (a :: l).

  Lemma simple_path af a w l : simple af a w l -> path ev tp nbs af true true (TNode a) w.
  Proof.
    intros H. induction H as [nb F|node a c d w l Hn H IH L N]; [now apply path_first|].
    now apply path_link.
  Qed.
  Lemma simple_in af a w l : simple af a w l -> forall x, In x l -> exists w' l', simple af x w' l'.
  Proof.
    intros H. induction H as [nb F|node a c d w l Hn H IH L N]; intros x Hx.
    - destruct Hx as [<-|[]]. do 2 eexists. now apply s_first.
    - destruct Hx as [<-|Hx]; [|now apply IH]. do 2 eexists. eapply s_link; eauto.
  Qed.
  Lemma simple_props af a w l : simple af a w l ->
    NoDup l /\ incl l (map tn_orig (tp_nodes tp)) /\ w_hops w = zlen l.
  Proof.
    intros H. induction H as [nb F|node a c d w l Hn H IH L N].
    - split; [constructor; [intros []|constructor]|]. split; [|reflexivity].
      intros x [<-|[]]. destruct F as (_ & _ & _ & _ & _ & _ & n & Hn & <- & _). now apply in_map.
    - destruct IH as (A & B & C). split; [now constructor|]. split.
      + intros x [<-|Hx]; [|now apply B].
        remember (TNode a) as t eqn:E. destruct L as [e He V M O W|y Hy M W]; [|discriminate].
        injection E as <-. apply (tk_edge ev tp TK node e Hn He).
      + cbn [w_hops]. rewrite C. unfold zlen. cbn [length]. lia.
  Qed.
  Lemma path_simple af t w : path ev tp nbs af true true t w -> forall a, t = TNode a ->
    exists w' l, simple af a w' l.
  Proof.
    intros H. induction H as [nb F|node t c d w Hn HP IH L]; intros a E.
    - injection E as <-. do 2 eexists. now apply s_first.
    - subst t. destruct (IH _ eq_refl) as (w' & l & S).
      destruct (in_dec Z.eq_dec a l) as [Hi|Hi].
      + now apply (simple_in _ _ _ _ S).
      + do 2 eexists. eapply s_link; eauto.
  Qed.

  Lemma small_near : zlen (tp_nodes tp) <= 255 -> near ev tp nbs.
  Proof.
    intros B af a w H. destruct (path_simple _ _ _ H a eq_refl) as (w' & l & S).
    exists w'. split; [now apply (simple_path _ _ _ _ S)|].
    destruct (simple_props _ _ _ _ S) as (ND & IN & ->).
    pose proof (NoDup_incl_length ND IN) as Q. rewrite map_length in Q. unfold zlen in *. lia.
  Qed.
End Near.

Lemma insert_NoDup l e : NoDup (keys l) -> ~ In (re_key e) (keys l) -> NoDup (keys (insert_entry l e)).
Proof.
  unfold keys. induction l as [|x l IH]; intros ND NI; cbn [insert_entry map].
  - constructor; [exact NI|constructor].
  - destruct (re_key x <? re_key e); cbn [map].
    + inversion ND; subst. constructor.
      * intros H. apply (proj1 (insert_keys l e (re_key x))) in H as [H|H]; [|contradiction]. apply NI. now left.
      * apply IH; [assumption|]. intros H. apply NI. now right.
    + constructor; assumption.
Qed.

Lemma update_NoDup ev l o : NoDup (keys l) -> NoDup (keys (update_routing_entry ev l o)).
Proof.
  intros ND. unfold update_routing_entry.
  destruct (ev_originator ev (ev_fam ev (ev_dst ev (ra_key o))) =? ev_dst ev (ra_key o)); [exact ND|].
  destruct (ev_ifaddr ev (ev_dst ev (ra_key o))); [exact ND|].
  destruct (match ev_lan ev (ra_key o) with Some (active, metric) => active && (metric <? ra_cost o)
            | None => false end); [exact ND|].
  destruct (negb (ev_routable ev (ev_dst ev (ra_key o)))); [exact ND|].
  unfold add_entry. destruct (find_entry l (ra_key o)) as [e|] eqn:F.
  - destruct (re_set e && (re_cost e <? ra_cost o)); [exact ND|]. cbv zeta. now rewrite put_keys.
  - destruct (ev_mem ev (ra_key o)); [|exact ND]. cbn [re_set andb]. cbv zeta. rewrite put_keys.
    apply insert_NoDup; [exact ND|]. cbn [re_key]. intros H. apply find_entry_In in H as (e & H). congruence.
Qed.

Lemma fold_update_NoDup ev os l : NoDup (keys l) -> NoDup (keys (fold_left (update_routing_entry ev) os l)).
Proof.
  revert l. induction os as [|o os IH]; intros l ND; cbn [fold_left]; [exact ND|].
  apply IH, update_NoDup, ND.
Qed.

Lemma In_find l e : NoDup (keys l) -> In e l -> find_entry l (re_key e) = Some e.
Proof.
  unfold find_entry, keys. induction l as [|x l IH]; intros ND HI; [destruct HI|]. destruct HI as [->|H]; cbn [find].
  - now rewrite Z.eqb_refl.
  - cbn [map] in ND. inversion ND as [|? ? N1 N2]; subst.
    destruct (Z.eqb_spec (re_key x) (re_key e)) as [E|E]; [|now apply IH].
    exfalso. apply N1. rewrite E. now apply in_map.
Qed.

Lemma find_In l k e : find_entry l k = Some e -> In e l /\ re_key e = k.
Proof. intros F. apply find_some in F as [F1 F2]. apply Z.eqb_eq in F2. auto. Qed.

Lemma calculate_NoDup ev tp nbs f l l' f' : topo_ok ev tp -> NoDup (keys l) ->
  calculate_routes ev tp nbs f l = Some (l', f') -> NoDup (keys l').
Proof.
  intros TK ND. unfold calculate_routes.
  assert (ND0 : NoDup (keys (prepare_routes l))).
  { unfold keys, prepare_routes. rewrite map_map. exact ND. }
  assert (RUN : forall af a b s s', wq s = [] -> run_dijkstra ev tp nbs af a b s = Some s' ->
            NoDup (keys (rt s)) -> NoDup (keys (rt s')) /\ wq s' = []).
  { intros af a b s s' Q E N. destruct (run_safe ev tp nbs af a b TK s Q) as (s1 & E1 & Q1 & os & R & _).
    rewrite E1 in E. injection E as <-. rewrite R. split; [now apply fold_update_NoDup|exact Q1]. }
  destruct (run_dijkstra ev tp nbs AF_INET true _ _) as [s1|] eqn:E1; [|discriminate]. cbn [obind].
  apply RUN in E1 as [N1 Q1]; [|reflexivity|exact ND0].
  destruct (run_dijkstra ev tp nbs AF_INET6 true _ s1) as [s2|] eqn:E2; [|discriminate]. cbn [obind].
  apply RUN in E2 as [N2 Q2]; [|exact Q1|exact N1].
  assert (FIN : forall s5, NoDup (keys (rt s5)) -> Some (handle_nhdp_routes ev nbs (rt s5), dn s5) = Some (l', f') ->
            NoDup (keys l')).
  { intros s5 N E. injection E as E _. rewrite <- E, nhdp_fold. now apply fold_update_NoDup. }
  destruct (check_ssnode_split ev tp AF_INET || check_ssnode_split ev tp AF_INET6);
    [|cbn [obind]; now apply FIN].
  cbv zeta. set (s3 := DState (prepare_nodes ev tp (dn s2)) (wq s2) (rt s2)).
  assert (R4 : forall s4, (if check_ssnode_split ev tp AF_INET
             then run_dijkstra ev tp nbs AF_INET false true s3 else Some s3) = Some s4 ->
             NoDup (keys (rt s4)) /\ wq s4 = []).
  { intros s4 E. destruct (check_ssnode_split ev tp AF_INET).
    - now apply RUN in E.
    - injection E as <-. now split. }
  destruct (if check_ssnode_split ev tp AF_INET
             then run_dijkstra ev tp nbs AF_INET false true s3 else Some s3) as [s4|]; [|discriminate].
  destruct (R4 s4 eq_refl) as [N4 Q4]. cbn [obind].
  destruct (check_ssnode_split ev tp AF_INET6); [|cbn [obind]; now apply FIN].
  destruct (run_dijkstra ev tp nbs AF_INET6 false true s4) as [s5|] eqn:E5; [|discriminate]. cbn [obind].
  apply RUN in E5 as [N5 _]; [|exact Q4|exact N4]. now apply FIN.
Qed.

(** A decision procedure for the well-formedness of a topology, for the
    examples. *)
Fixpoint nodupb (l : list Z) : bool :=
  match l with [] => true | x :: l' => negb (existsb (Z.eqb x) l') && nodupb l' end.

Lemma existsb_In x l : existsb (Z.eqb x) l = true <-> In x l.
Proof.
  rewrite existsb_exists. split.
  - intros (y & H & E). apply Z.eqb_eq in E. now subst.
  - intros H. exists x. split; [exact H|apply Z.eqb_refl].
Qed.

Lemma nodupb_ok l : nodupb l = true -> NoDup l.
Proof.
  induction l as [|x l IH]; intros H; [constructor|]. cbn in H.
  apply andb_prop in H as [H1 H2]. constructor; [|now apply IH].
  intros HI. apply existsb_In in HI. rewrite HI in H1. discriminate.
Qed.

Definition topo_okb (ev : env) (tp : topo) : bool :=
  nodupb (map tn_orig (tp_nodes tp)) && nodupb (map te_key (tp_ends tp)) &&
  forallb (fun n => nodupb (map a_dst (tn_atts n))) (tp_nodes tp) &&
  forallb (fun n => forallb (fun e => (0 <=? e_cost e) &&
      existsb (Z.eqb (e_dst e)) (map tn_orig (tp_nodes tp)) &&
      (ev_fam ev (e_dst e) =? ev_fam ev (tn_orig n))) (tn_edges n)) (tp_nodes tp) &&
  forallb (fun n => forallb (fun a => (0 <=? a_cost a) &&
      existsb (Z.eqb (a_dst a)) (map te_key (tp_ends tp))) (tn_atts n)) (tp_nodes tp) &&
  forallb (fun n1 => forallb (fun n2 => forallb (fun a1 => forallb (fun a2 =>
      negb (a_dst a1 =? a_dst a2) || (ev_fam ev (tn_orig n1) =? ev_fam ev (tn_orig n2)))
      (tn_atts n2)) (tn_atts n1)) (tp_nodes tp)) (tp_nodes tp).

Lemma topo_okb_ok ev tp : topo_okb ev tp = true -> topo_ok ev tp.
Proof.
  unfold topo_okb. intros H. repeat (apply andb_prop in H as [H ?]).
  rewrite forallb_forall in *. constructor.
  - now apply nodupb_ok.
  - now apply nodupb_ok.
  - intros n Hn. apply nodupb_ok. auto.
  - intros n e Hn He. specialize (H2 n Hn). rewrite forallb_forall in H2. specialize (H2 e He).
    repeat (apply andb_prop in H2 as [H2 ?]). apply Z.leb_le in H2. apply existsb_In in H6.
    apply Z.eqb_eq in H5. auto.
  - intros n a Hn Ha. specialize (H1 n Hn). rewrite forallb_forall in H1. specialize (H1 a Ha).
    repeat (apply andb_prop in H1 as [H1 ?]). apply Z.leb_le in H1. apply existsb_In in H5. auto.
  - intros n1 n2 a1 a2 Hn1 Hn2 Ha1 Ha2 E. specialize (H0 n1 Hn1). rewrite forallb_forall in H0.
    specialize (H0 n2 Hn2). rewrite forallb_forall in H0. specialize (H0 a1 Ha1).
    rewrite forallb_forall in H0. specialize (H0 a2 Ha2). apply orb_prop in H0 as [H0|H0].
    + rewrite E, Z.eqb_refl in H0. discriminate.
    + now apply Z.eqb_eq in H0.
Qed.

Definition neighs_okb (nbs : list neigh) : bool :=
  forallb (fun nb => (0 <=? nb_out nb) && forallb (fun h => 0 <=? l2_out h) (nb_2hop nb)) nbs.
Lemma neighs_okb_ok nbs : neighs_okb nbs = true -> neighs_ok nbs.
Proof.
  unfold neighs_okb, neighs_ok. rewrite forallb_forall. intros H nb Hnb. specialize (H nb Hnb).
  apply andb_prop in H as [H1 H2]. apply Z.leb_le in H1. split; [exact H1|].
  rewrite forallb_forall in H2. intros h Hh. specialize (H2 h Hh). now apply Z.leb_le in H2.
Qed.
