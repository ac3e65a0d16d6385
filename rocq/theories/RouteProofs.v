(** Proofs about the kernel route handling. *)
From Verif Require Import Base DijkstraModel DijkstraSpec DijkstraProofs DijkstraOpt DijkstraTable DijkstraNear RouteModel RouteSpec.

(** * The calculation as a sequence of updates *)

Lemma calculate_fold ev tp nbs f l l' f' : topo_ok ev tp ->
  calculate_routes ev tp nbs f l = Some (l', f') ->
  exists os, l' = fold_left (update_routing_entry ev) os (prepare_routes l).
Proof.
  intros TK. unfold calculate_routes.
  assert (RUN : forall af a b s s' r0, wq s = [] -> run_dijkstra ev tp nbs af a b s = Some s' ->
            (exists os, rt s = fold_left (update_routing_entry ev) os r0) ->
            (exists os, rt s' = fold_left (update_routing_entry ev) os r0) /\ wq s' = []).
  { intros af a b s s' r0 Q E (os0 & N).
    destruct (run_safe ev tp nbs af a b TK s Q) as (s1 & E1 & Q1 & os & R & _).
    rewrite E1 in E. injection E as <-. rewrite R. split; [|exact Q1].
    exists (os0 ++ os). rewrite fold_left_app. now rewrite N. }
  set (r0 := prepare_routes l).
  destruct (run_dijkstra ev tp nbs AF_INET true _ _) as [s1|] eqn:E1; [|discriminate]. cbn [obind].
  apply RUN with (r0 := r0) in E1 as [N1 Q1]; [|reflexivity|exists []; reflexivity].
  destruct (run_dijkstra ev tp nbs AF_INET6 true _ s1) as [s2|] eqn:E2; [|discriminate]. cbn [obind].
  apply RUN with (r0 := r0) in E2 as [N2 Q2]; [|exact Q1|exact N1].
  assert (FIN : forall s5, (exists os, rt s5 = fold_left (update_routing_entry ev) os r0) ->
            Some (handle_nhdp_routes ev nbs (rt s5), dn s5) = Some (l', f') ->
            exists os, l' = fold_left (update_routing_entry ev) os r0).
  { intros s5 (os & N) E. injection E as E _. rewrite <- E, nhdp_fold, N.
    eexists. symmetry. apply fold_left_app. }
  destruct (check_ssnode_split ev tp AF_INET || check_ssnode_split ev tp AF_INET6);
    [|cbn [obind]; now apply FIN].
  cbv zeta. set (s3 := DState (prepare_nodes ev tp (dn s2)) (wq s2) (rt s2)).
  assert (R4 : forall s4, (if check_ssnode_split ev tp AF_INET
             then run_dijkstra ev tp nbs AF_INET false true s3 else Some s3) = Some s4 ->
             (exists os, rt s4 = fold_left (update_routing_entry ev) os r0) /\ wq s4 = []).
  { intros s4 E. destruct (check_ssnode_split ev tp AF_INET).
    - now apply RUN with (r0 := r0) in E.
    - injection E as <-. now split. }
  destruct (if check_ssnode_split ev tp AF_INET
             then run_dijkstra ev tp nbs AF_INET false true s3 else Some s3) as [s4|]; [|discriminate].
  destruct (R4 s4 eq_refl) as [N4 Q4]. cbn [obind].
  destruct (check_ssnode_split ev tp AF_INET6); [|cbn [obind]; now apply FIN].
  destruct (run_dijkstra ev tp nbs AF_INET6 false true s4) as [s5|] eqn:E5; [|discriminate]. cbn [obind].
  apply RUN with (r0 := r0) in E5 as [N5 _]; [|exact Q4|exact N4]. now apply FIN.
Qed.

Lemma In_put l e x : In x (put_entry l e) -> x = e \/ (In x l /\ re_key x <> re_key e).
Proof.
  unfold put_entry. intros H. apply in_map_iff in H as (y & E & H).
  destruct (Z.eqb_spec (re_key y) (re_key e)); subst; auto.
Qed.
Lemma In_put_other l e x : In x l -> re_key x <> re_key e -> In x (put_entry l e).
Proof.
  intros H N. unfold put_entry. apply in_map_iff. exists x. split; [|exact H].
  destruct (Z.eqb_spec (re_key x) (re_key e)); [contradiction|reflexivity].
Qed.
Lemma In_put_same l e : In (re_key e) (keys l) -> In e (put_entry l e).
Proof.
  unfold keys, put_entry. intros H. apply in_map_iff in H as (x & E & H).
  apply in_map_iff. exists x. split; [|exact H].
  destruct (Z.eqb_spec (re_key x) (re_key e)); [reflexivity|contradiction].
Qed.
Lemma In_insert l e x : In x (insert_entry l e) -> x = e \/ In x l.
Proof.
  induction l as [|y l IH]; cbn [insert_entry]; intros H.
  - destruct H as [->|[]]; auto.
  - destruct (re_key y <? re_key e).
    + destruct H as [->|H]; [right; now left|]. destruct (IH H); [auto|right; now right].
    + destruct H as [->|H]; auto.
Qed.

(** Where the entries of the new table come from. *)
Definition comes_from (l : list rentry) (e' : rentry) : Prop :=
  (exists e, In e l /\ re_key e = re_key e' /\ re_old e' = Some (re_p e) /\ re_proc e' = re_proc e /\
     p_srcip (re_p e') = p_srcip (re_p e) /\ (re_set e' = false -> re_p e' = re_p e)) \/
  (~ In (re_key e') (keys l) /\ re_old e' = None /\ re_proc e' = false /\ re_set e' = true /\
     p_srcip (re_p e') = 0).

Lemma fold_comes_from ev l os : forall e',
  In e' (fold_left (update_routing_entry ev) os (prepare_routes l)) -> comes_from l e'.
Proof.
  assert (G : forall os, let t := fold_left (update_routing_entry ev) os (prepare_routes l) in
             (forall x, In x (keys l) -> In x (keys t)) /\ forall e', In e' t -> comes_from l e').
  2:{ intros e' H. now apply (G os). }
  clear os. intros os. cbv zeta. induction os as [|o os IH] using rev_ind.
  - cbn [fold_left]. split.
    + intros x. unfold keys, prepare_routes. now rewrite map_map.
    + intros e' H. unfold prepare_routes in H. apply in_map_iff in H as (e & <- & H).
      left. exists e. repeat split; auto.
  - rewrite fold_left_app. cbn [fold_left].
    set (t := fold_left (update_routing_entry ev) os (prepare_routes l)) in *. destruct IH as [K IH].
    destruct (update_spec ev t o) as (_ & _ & _ & _ & B5).
    split; [intros x Hx; apply B5, K, Hx|]. clear B5.
    intros e'. unfold update_routing_entry.
    destruct (ev_originator ev (ev_fam ev (ev_dst ev (ra_key o))) =? ev_dst ev (ra_key o)); [apply IH|].
    destruct (ev_ifaddr ev (ev_dst ev (ra_key o))); [apply IH|].
    destruct (match ev_lan ev (ra_key o) with Some (active, metric) => active && (metric <? ra_cost o)
              | None => false end); [apply IH|].
    destruct (negb (ev_routable ev (ev_dst ev (ra_key o)))); [apply IH|].
    unfold add_entry. destruct (find_entry t (ra_key o)) as [e|] eqn:F.
    + destruct (re_set e && (re_cost e <? ra_cost o)); [apply IH|]. cbv zeta.
      intros H. apply In_put in H as [->|[H _]]; [|now apply IH].
      apply find_In in F as [F1 F2]. specialize (IH e F1).
      destruct IH as [(e0 & A1 & A2 & A3 & A4 & A5 & A6)|(A1 & A2 & A3 & A4 & A5)].
      * left. exists e0. cbn. repeat split; try assumption; [congruence|discriminate].
      * right. cbn. rewrite <- F2. repeat split; assumption.
    + destruct (ev_mem ev (ra_key o)); [|apply IH]. cbn [re_set andb]. cbv zeta.
      intros H. apply In_put in H as [->|[H N]].
      * right. cbn. split; [|repeat split].
        intros HI. apply K in HI. apply find_entry_In in HI as (e & HI). congruence.
      * apply In_insert in H as [H|H]; [subst e'; now contradiction N|now apply IH].
Qed.

(** * The kernel's table, seen from one key *)

Definition kof (k : Z) (l : list (Z * rparam)) : list rparam := map snd (filter (fun x => fst x =? k) l).
Definition pof (k : Z) (l : list (Z * Z)) : list Z := map snd (filter (fun x => fst x =? k) l).

Lemma kof_In k p l : In p (kof k l) <-> In (k, p) l.
Proof.
  unfold kof. rewrite in_map_iff. split.
  - intros ([k' p'] & <- & H). apply filter_In in H as [H E]. apply Z.eqb_eq in E. cbn in *. now subst.
  - intros H. exists (k, p). split; [reflexivity|]. apply filter_In. split; [exact H|apply Z.eqb_refl].
Qed.

Lemma kof_filter k f l : (forall p, In (k, p) l -> f (k, p) = true) -> kof k (filter f l) = kof k l.
Proof.
  unfold kof. intros H. f_equal. induction l as [|[k' p] l IH]; [reflexivity|]. cbn [filter].
  destruct (f (k', p)) eqn:F; cbn [filter fst].
  - rewrite IH; [reflexivity|]. intros q Hq. apply H. now right.
  - destruct (Z.eqb_spec k' k) as [->|N].
    + rewrite H in F; [discriminate|now left].
    + apply IH. intros q Hq. apply H. now right.
Qed.

Lemma kof_set_other k k' p l : k <> k' -> kof k (kernel_set k' p l) = kof k l.
Proof.
  intros N. unfold kernel_set.
  transitivity (kof k (filter (fun x => negb ((fst x =? k') && (p_table (snd x) =? p_table p) &&
                                   (p_metric (snd x) =? p_metric p))) l)).
  - unfold kof at 1. cbn [filter fst]. destruct (Z.eqb_spec k' k); [congruence|reflexivity].
  - apply kof_filter. intros q _. cbn [fst]. destruct (Z.eqb_spec k k'); [contradiction|reflexivity].
Qed.

Lemma kof_set_same k p l :
  (forall x, In x (kof k l) -> p_table x = p_table p /\ p_metric x = p_metric p) ->
  kof k (kernel_set k p l) = [p].
Proof.
  intros H. unfold kernel_set, kof. cbn [filter fst map]. rewrite Z.eqb_refl. cbn [map snd]. f_equal.
  match goal with |- map snd ?X = [] => assert (X = []) as ->; [|reflexivity] end.
  assert (G : forall l', (forall x, In x l' -> In x l) ->
     filter (fun x => fst x =? k) (filter (fun x => negb ((fst x =? k) && (p_table (snd x) =? p_table p) &&
                                   (p_metric (snd x) =? p_metric p))) l') = []).
  { induction l' as [|[k' q] l' IH]; intros S; [reflexivity|]. cbn [filter fst snd].
    destruct (Z.eqb_spec k' k) as [->|N].
    - destruct (H q) as [-> ->]; [apply kof_In, S; now left|]. rewrite !Z.eqb_refl. cbn.
      apply IH. intros x Hx. apply S. now right.
    - cbn [andb negb filter fst]. destruct (Z.eqb_spec k' k); [contradiction|].
      apply IH. intros x Hx. apply S. now right. }
  apply G. auto.
Qed.

Lemma kernel_match_key k p x : kernel_match k p x = true -> fst x = k.
Proof. unfold kernel_match. intros H. repeat (apply andb_prop in H as [H _]). now apply Z.eqb_eq. Qed.

Lemma kof_del_other k k' p l : k <> k' -> kof k (fst (kernel_del k' p l)) = kof k l.
Proof.
  intros N. unfold kernel_del. destruct (existsb (kernel_match k' p) l); cbn [fst]; [|reflexivity].
  apply kof_filter. intros q _. destruct (kernel_match k' p (k, q)) eqn:M; [|reflexivity].
  apply kernel_match_key in M. cbn in M. congruence.
Qed.

Lemma kof_del_same k p l : kof k l = [p] \/ kof k l = [] ->
  kof k (fst (kernel_del k p l)) = [] /\
  (snd (kernel_del k p l) = 0 \/ snd (kernel_del k p l) = ESRCH).
Proof.
  intros H. unfold kernel_del. destruct (existsb (kernel_match k p) l) eqn:X; cbn [fst snd].
  - split; [|now left].
    destruct (kof k (filter (fun x => negb (kernel_match k p x)) l)) as [|q r] eqn:K; [reflexivity|exfalso].
    assert (I : In (k, q) (filter (fun x => negb (kernel_match k p x)) l)).
    { apply kof_In. rewrite K. now left. }
    apply filter_In in I as [I1 I2]. apply kof_In in I1.
    destruct H as [H|H]; rewrite H in I1; [|destruct I1].
    destruct I1 as [<-|[]]. unfold kernel_match in I2. cbn [fst snd] in I2.
    rewrite !Z.eqb_refl in I2. discriminate.
  - split; [|now right]. destruct H as [H|H]; [|exact H]. exfalso.
    assert (I : In (k, p) l) by (apply kof_In; rewrite H; now left).
    assert (T : existsb (kernel_match k p) l = true).
    { apply existsb_exists. exists (k, p). split; [exact I|]. unfold kernel_match. cbn [fst snd].
      now rewrite !Z.eqb_refl. }
    congruence.
Qed.

Lemma pof_app k l k' c : pof k (l ++ [(k', c)]) = if k' =? k then pof k l ++ [c] else pof k l.
Proof.
  unfold pof. rewrite filter_app, map_app. cbn [filter fst].
  destruct (k' =? k); [reflexivity|]. cbn [map]. apply app_nil_r.
Qed.

(** * Entries whose request is outstanding or done, entries still in the queue *)

Definition good (s : rstate) (e : rentry) : Prop :=
  let k := re_key e in
  if re_proc e
  then if re_set e then kof k (s_kern s) = [re_p e] /\ pof k (s_pend s) = [0]
       else kof k (s_kern s) = [] /\ (pof k (s_pend s) = [0] \/ pof k (s_pend s) = [ESRCH])
  else re_set e = true /\ kof k (s_kern s) = [re_p e] /\ pof k (s_pend s) = [].

Definition todo (s : rstate) (e : rentry) : Prop :=
  let k := re_key e in
  re_proc e = false /\ pof k (s_pend s) = [] /\
  (if re_set e
   then forall x, In x (kof k (s_kern s)) -> p_table x = p_table (re_p e) /\ p_metric x = p_metric (re_p e)
   else kof k (s_kern s) = [re_p e] \/ kof k (s_kern s) = []).

Definition same_rest (s s' : rstate) : Prop :=
  s_dom s' = s_dom s /\ s_flt s' = s_flt s /\ s_changed s' = s_changed s /\
  s_shut s' = s_shut s /\ s_freeze s' = s_freeze s.

Lemma good_ext s s' e : kof (re_key e) (s_kern s') = kof (re_key e) (s_kern s) ->
  pof (re_key e) (s_pend s') = pof (re_key e) (s_pend s) -> good s e -> good s' e.
Proof. unfold good. intros -> ->. auto. Qed.
Lemma todo_ext s s' e : kof (re_key e) (s_kern s') = kof (re_key e) (s_kern s) ->
  pof (re_key e) (s_pend s') = pof (re_key e) (s_pend s) -> todo s e -> todo s' e.
Proof. unfold todo. intros -> ->. auto. Qed.

Lemma queue_loop : forall q s,
  NoDup q -> NoDup (keys (s_tab s)) -> (forall k, In k q -> In k (keys (s_tab s))) ->
  (forall e, In e (s_tab s) -> (In (re_key e) q -> todo s e) /\ (~ In (re_key e) q -> good s e)) ->
  (forall k, ~ In k (keys (s_tab s)) -> kof k (s_kern s) = [] /\ pof k (s_pend s) = []) ->
  let s' := process_kernel_queue accepting s q in
  keys (s_tab s') = keys (s_tab s) /\ (forall e, In e (s_tab s') -> good s' e) /\
  (forall k, ~ In k (keys (s_tab s)) -> kof k (s_kern s') = [] /\ pof k (s_pend s') = []) /\
  (forall e', In e' (s_tab s') -> exists e, In e (s_tab s) /\ e' = set_flags e (re_set e) (re_proc e')) /\
  same_rest s s'.
Proof.
  unfold process_kernel_queue. induction q as [|k q IH]; intros s NQ ND QK ALL OUT; cbn [fold_left].
  - split; [reflexivity|]. split; [intros e He; apply (ALL e He); intros []|]. split; [exact OUT|].
    split; [|repeat split]. intros e He. exists e. split; [exact He|]. now destruct e.
  - inversion NQ as [|? ? NI NQ']; subst.
    assert (KK : In k (keys (s_tab s))) by (apply QK; now left).
    destruct (proj1 (find_entry_In _ _) KK) as (e & F).
    destruct (find_In _ _ _ F) as [HI HK].
    destruct (ALL e HI) as [TD _]. rewrite HK in TD. specialize (TD (or_introl eq_refl)).
    destruct TD as (T1 & T2 & T3).
    set (e1 := set_flags e (re_set e) true).
    assert (K1 : re_key e1 = k) by exact HK.
    set (s1 := process_queued accepting s k).
    assert (E1 : s_tab s1 = put_entry (s_tab s) e1 /\
                 (forall k', k' <> k -> kof k' (s_kern s1) = kof k' (s_kern s) /\
                                        pof k' (s_pend s1) = pof k' (s_pend s)) /\
                 good s1 e1 /\ same_rest s s1).
    { unfold s1, process_queued. rewrite F, T1. fold e1. unfold os_routing_set, accepting.
      change (0 =? -1) with false. change (0 =? 0) with true. cbv beta iota zeta.
      unfold good. rewrite K1. change (re_proc e1) with true. cbv iota.
      change (re_set e1) with (re_set e). change (re_p e1) with (re_p e).
      rewrite HK in T2, T3.
      destruct (re_set e) eqn:SE.
      - cbn [s_kern s_pend s_tab with_tab]. split; [reflexivity|].
        split; [|split; [split|repeat split]].
        + intros k' N. rewrite kof_set_other by exact N. rewrite pof_app.
          destruct (Z.eqb_spec k k'); [congruence|]. auto.
        + apply kof_set_same, T3.
        + rewrite pof_app, Z.eqb_refl, T2. reflexivity.
      - pose proof (kof_del_same k (re_p e) (s_kern s) T3) as [D1 D2].
        pose proof (fun k' N => kof_del_other k' k (re_p e) (s_kern s) N) as D3.
        cbn [s_kern with_tab].
        destruct (kernel_del k (re_p e) (s_kern s)) as [kn er]. cbn [fst snd] in *.
        cbn [s_kern s_pend s_tab with_tab]. split; [reflexivity|].
        split; [|split; [split|repeat split]].
        + intros k' N. rewrite (D3 k' N), pof_app. destruct (Z.eqb_spec k k'); [congruence|]. auto.
        + exact D1.
        + rewrite pof_app, Z.eqb_refl, T2. cbn. destruct D2 as [-> | ->]; auto. }
    destruct E1 as (ET & EO & EG & ER).
    assert (KT : keys (s_tab s1) = keys (s_tab s)) by (rewrite ET; apply put_keys).
    destruct (IH s1) as (A1 & A2 & A3 & A4 & A5).
    + exact NQ'.
    + now rewrite KT.
    + intros k' H. rewrite KT. apply QK. now right.
    + intros x Hx. rewrite ET in Hx. apply In_put in Hx as [->|[Hx N]].
      * rewrite K1. split; [contradiction|]. intros _. exact EG.
      * rewrite K1 in N. destruct (EO _ N) as [O1 O2]. destruct (ALL x Hx) as [X1 X2]. split; intros Y.
        -- apply (todo_ext s); auto. apply X1. now right.
        -- apply (good_ext s); auto. apply X2. intros [Z|Z]; [congruence|contradiction].
    + intros k' N. rewrite KT in N. assert (N' : k' <> k) by congruence.
      destruct (EO _ N') as [-> ->]. apply OUT, N.
    + rewrite KT in A1, A3. split; [exact A1|]. split; [exact A2|]. split; [exact A3|]. split.
      * intros e' He'. destruct (A4 e' He') as (x & Hx & Ex). rewrite ET in Hx.
        apply In_put in Hx as [->|[Hx _]]; [|eauto].
        exists e. split; [exact HI|]. rewrite Ex. reflexivity.
      * destruct A5 as (P1 & P2 & P3 & P4 & P5). destruct ER as (Q1 & Q2 & Q3 & Q4 & Q5).
        repeat split; congruence.
Qed.

(** * The queue *)

Lemma add_to_queue_In q e k : In k (add_to_queue q e) <-> k = re_key e \/ In k q.
Proof.
  unfold add_to_queue. destruct (re_set e), (p_gw (re_p e) =? 0); cbn [In]; rewrite ?in_app_iff; cbn [In];
    intuition congruence.
Qed.
Lemma NoDup_snoc {A} (l : list A) x : NoDup l -> ~ In x l -> NoDup (l ++ [x]).
Proof.
  induction l as [|y l IH]; intros N I; cbn; [constructor; [auto|constructor]|].
  inversion N; subst. constructor.
  - rewrite in_app_iff. intros [H|[->|[]]]; [contradiction|]. apply I. now left.
  - apply IH; [assumption|]. intros H. apply I. now right.
Qed.
Lemma add_to_queue_NoDup q e : NoDup q -> ~ In (re_key e) q -> NoDup (add_to_queue q e).
Proof.
  intros N I. unfold add_to_queue.
  destruct (re_set e), (p_gw (re_p e) =? 0); try (now constructor); now apply NoDup_snoc.
Qed.

Lemma result_queue l : forall q, NoDup q -> NoDup (keys l) -> (forall k, In k q -> ~ In k (keys l)) ->
  let q' := fold_left (fun q e => if unchanged e then q else add_to_queue q e) l q in
  NoDup q' /\ forall k, In k q' <-> In k q \/ exists e, In e l /\ re_key e = k /\ unchanged e = false.
Proof.
  cbv zeta. unfold keys. induction l as [|e l IH]; intros q NQ ND DJ; cbn [fold_left].
  - split; [exact NQ|]. intros k. split; [auto|]. intros [H|(e & [] & _)]. exact H.
  - cbn [map] in *. inversion ND as [|? ? N1 N2]; subst.
    destruct (IH (if unchanged e then q else add_to_queue q e)) as [A1 A2]; auto.
    + destruct (unchanged e); [exact NQ|]. apply add_to_queue_NoDup; [exact NQ|].
      intros H. apply (DJ _ H). now left.
    + intros k Hk Hl. destruct (unchanged e); [apply (DJ _ Hk); now right|].
      apply add_to_queue_In in Hk as [->|Hk]; [contradiction|]. apply (DJ _ Hk). now right.
    + split; [exact A1|]. intros k. rewrite A2. split.
      * intros [H|(x & Hx & K & U)].
        -- destruct (unchanged e) eqn:U; [auto|]. apply add_to_queue_In in H as [->|H]; [|auto].
           right. exists e. split; [now left|auto].
        -- right. exists x. split; [now right|auto].
      * intros [H|(x & [<-|Hx] & K & U)].
        -- left. destruct (unchanged e); [exact H|]. apply add_to_queue_In. auto.
        -- left. rewrite U. apply add_to_queue_In. auto.
        -- right. eauto.
Qed.

(** * The invariant of calm executions *)

Definition unit_param (dom : rdomain) : rparam := RParam 0 0 (rd_metric dom) (rd_table dom) (rd_proto dom) 0.

Section Calm.
  Context (v4 : Z -> bool) (flt : list rfilter) (FX : fixed_filters flt).

  Record inv (s : rstate) : Prop := {
    v_nodup : NoDup (keys (s_tab s));
    v_good : forall e, In e (s_tab s) -> good s e;
    v_out : forall k, ~ In k (keys (s_tab s)) -> kof k (s_kern s) = [] /\ pof k (s_pend s) = [];
    v_flt : s_flt s = flt;
    v_attr : forall e, In e (s_tab s) -> re_set e = true ->
      let u := apply_filters flt (re_key e) (unit_param (s_dom s)) true in
      p_table (re_p e) = p_table u /\ p_metric (re_p e) = p_metric u /\ p_proto (re_p e) = p_proto u /\
      (rd_srcip (s_dom s) && v4 (re_key e) = false -> p_srcip (re_p e) = 0) }.

  Lemma inv_sync s : inv s -> in_sync s.
  Proof.
    intros I k p. rewrite <- kof_In. split.
    - intros H. destruct (in_dec Z.eq_dec k (keys (s_tab s))) as [K|K].
      + apply in_map_iff in K as (e & K & He). pose proof (v_good s I e He) as G.
        unfold good in G. rewrite K in G. exists e.
        destruct (re_proc e); [destruct (re_set e)|].
        * destruct G as [G _]. rewrite G in H. destruct H as [<-|[]]. auto.
        * destruct G as [G _]. rewrite G in H. destruct H.
        * destruct G as (S & G & _). rewrite G in H. destruct H as [<-|[]]. auto.
      + destruct (v_out s I k K) as [O _]. rewrite O in H. destruct H.
    - intros (e & He & K & S & P). pose proof (v_good s I e He) as G. unfold good in G.
      rewrite K, S, P in G. destruct (re_proc e); [destruct G as [-> _]|destruct G as (_ & -> & _)]; now left.
  Qed.

  Lemma settled_entry s e : inv s -> settled s -> In e (s_tab s) ->
    re_proc e = false /\ re_set e = true /\ kof (re_key e) (s_kern s) = [re_p e].
  Proof.
    intros I Q He. pose proof (v_good s I e He) as G. unfold good in G. rewrite Q in G.
    destruct (re_proc e); [destruct (re_set e)|].
    - destruct G as [_ G]; discriminate.
    - destruct G as [_ [G|G]]; discriminate.
    - destruct G as (A & B & _). auto.
  Qed.

  Lemma rparam_eqb_eq a b : rparam_eqb a b = true -> a = b.
  Proof.
    unfold rparam_eqb. intros H. repeat (apply andb_prop in H as [H ?]).
    destruct a, b; cbn in *. repeat match goal with X : (_ =? _) = true |- _ => apply Z.eqb_eq in X end.
    now subst.
  Qed.

  Lemma rparam_ext a b : p_if a = p_if b -> p_gw a = p_gw b -> p_metric a = p_metric b ->
    p_table a = p_table b -> p_proto a = p_proto b -> p_srcip a = p_srcip b -> a = b.
  Proof. destruct a, b; cbn. congruence. Qed.

  Lemma update_inv s ev tp nbs : inv s -> settled s -> topo_ok ev tp ->
    (forall k, (ev_fam ev (ev_dst ev k) =? AF_INET) = v4 k) ->
    exists s', force_update ev tp nbs accepting s = Some s' /\ inv s' /\
      (s_shut s || s_freeze s = false -> s_changed s = true ->
       forall l f, calculate_routes ev tp nbs (s_dn s) (s_tab s) = Some (l, f) ->
       forall k p, In (k, p) (s_kern s') <->
         exists e, In e l /\ re_key e = k /\ re_set e = true /\ p = kernel_param ev (s_dom s) (s_flt s) e).
  Proof.
    intros I Q TK V4. unfold force_update.
    destruct (s_shut s || s_freeze s) eqn:SF.
    { exists s. split; [reflexivity|]. split; [exact I|discriminate]. }
    destruct (s_changed s) eqn:CH; cbn [negb].
    2:{ exists s. split; [reflexivity|]. split; [exact I|discriminate]. }
    destruct (calculate_safe ev tp nbs (s_dn s) (s_tab s) TK) as (l & f & E). rewrite E. cbn [obind].
    destruct (calculate_fold ev tp nbs _ _ _ _ TK E) as (os & EF).
    pose proof (calculate_NoDup ev tp nbs _ _ _ _ TK (v_nodup s I) E) as NDl.
    assert (KS : forall k, In k (keys (s_tab s)) -> In k (keys l)).
    { intros k Hk. rewrite EF.
      assert (U : forall e, In e (prepare_routes (s_tab s)) -> re_set e = false).
      { intros e He. unfold prepare_routes in He. apply in_map_iff in He as (x & <- & _). reflexivity. }
      destruct (fold_updates ev _ U os) as (_ & K2 & _). apply K2.
      unfold keys, prepare_routes. rewrite map_map. exact Hk. }
    assert (LAN : forall e, In e l -> re_set e = true ->
              match ev_lan ev (re_key e) with
                | Some (active, metric) => active && (metric <? re_cost e) | None => false end = false).
    { intros e He S. 
      assert (U : forall e, In e (prepare_routes (s_tab s)) -> re_set e = false).
      { intros x Hx. unfold prepare_routes in Hx. apply in_map_iff in Hx as (y & <- & _). reflexivity. }
      destruct (fold_updates ev _ U os) as (_ & _ & A1 & _).
      pose proof (In_find _ _ NDl He) as F. rewrite EF in F.
      destruct (A1 _ _ F S) as (o & _ & _ & (_ & _ & NL & _) & _ & C & _).
      destruct (ev_lan ev (re_key e)) as [[[|] m]|] eqn:L; [|reflexivity|reflexivity].
      cbn [andb]. apply Z.ltb_ge. destruct (Z_lt_dec m (re_cost e)); [|lia].
      exfalso. apply NL. exists m. split; [reflexivity|lia]. }
    assert (CF : forall e, In e l -> comes_from (s_tab s) e).
    { intros e He. rewrite EF in He. eapply fold_comes_from; eauto. }
    unfold process_dijkstra_result. cbv beta iota zeta.
    set (l1 := map (finish_entry ev (s_dom s) (s_flt s)) l).
    set (q := fold_left _ l1 []).
    set (s1 := RState l1 f (s_kern s) (s_pend s) (s_sent s) (s_dom s) (s_flt s) false (s_shut s) (s_freeze s)).
    assert (K1 : keys l1 = keys l).
    { unfold keys, l1. rewrite map_map. apply map_ext. reflexivity. }
    assert (ND1 : NoDup (keys l1)) by (now rewrite K1).
    destruct (result_queue l1 [] (NoDup_nil _) ND1) as [NQ IQ]; [intros k []|]. fold q in NQ, IQ.
    assert (UNI : forall e x, In e l1 -> In x l1 -> re_key e = re_key x -> e = x).
    { intros e x He Hx Ek. pose proof (In_find _ _ ND1 He) as F1. pose proof (In_find _ _ ND1 Hx) as F2.
      rewrite Ek in F1. congruence. }
    assert (FS : forall e, In e l -> re_set (finish_entry ev (s_dom s) (s_flt s) e) = re_set e).
    { intros e He. unfold finish_entry. cbv zeta. cbn [re_set].
      destruct (re_set e) eqn:S; [rewrite (LAN e He S)|]; [reflexivity|].
      destruct (match ev_lan ev (re_key e) with Some (active, metric) => active && (metric <? re_cost e)
        | None => false end); reflexivity. }
    assert (FP : forall e, In e l -> re_p (finish_entry ev (s_dom s) (s_flt s) e) =
       apply_filters flt (re_key e) (RParam (p_if (re_p e)) (p_gw (re_p e)) (rd_metric (s_dom s))
         (rd_table (s_dom s)) (rd_proto (s_dom s))
         (if re_set e && rd_srcip (s_dom s) && v4 (re_key e) then ev_originator ev AF_INET else p_srcip (re_p e)))
         (re_set e)).
    { intros e He. rewrite <- (FS e He) at 2. unfold finish_entry. cbv zeta. cbn [re_set re_p].
      rewrite V4, (v_flt s I). reflexivity. }
    (* the old parameters have the attributes of the domain *)
    assert (OLD : forall e x, In e l -> In x (s_tab s) -> re_key x = re_key e ->
       let p := re_p (finish_entry ev (s_dom s) (s_flt s) e) in
       p_table (re_p x) = p_table p /\ p_metric (re_p x) = p_metric p /\ p_proto (re_p x) = p_proto p).
    { intros e x He Hx Ek. cbv zeta. rewrite (FP e He).
      destruct (settled_entry s x I Q Hx) as (_ & SX & _).
      destruct (v_attr s I x Hx SX) as (A1 & A2 & A3 & _). cbv zeta in A1, A2, A3. rewrite Ek in A1, A2, A3.
      rewrite A1, A2, A3.
      match goal with |- context [apply_filters flt (re_key e) ?P (re_set e)] => set (pp := P) end.
      destruct (FX (re_key e) (unit_param (s_dom s)) pp true (re_set e) eq_refl eq_refl eq_refl)
        as (_ & _ & _ & B1 & B2 & B3). auto. }
    destruct (queue_loop q s1) as (A1 & A2 & A3 & A4 & A5).
    { exact NQ. }
    { exact ND1. }
    { intros k Hk. apply IQ in Hk as [[]|(e & He & <- & _)]. now apply in_map. }
    { intros e1 He1. pose proof He1 as HI. cbn [s_tab s1] in He1. unfold l1 in He1.
      apply in_map_iff in He1 as (e & E1 & He).
      assert (QU : In (re_key e1) q -> unchanged e1 = false).
      { intros H. apply IQ in H as [[]|(x & Hx & Ex & U)]. rewrite <- U. f_equal. now apply UNI. }
      assert (QN : ~ In (re_key e1) q -> unchanged e1 = true).
      { intros H. destruct (unchanged e1) eqn:U; [reflexivity|]. exfalso. apply H, IQ. right. eauto. }
      assert (KE : re_key e1 = re_key e) by (rewrite <- E1; reflexivity).
      assert (SE : re_set e1 = re_set e) by (rewrite <- E1; now apply FS).
      assert (PE : re_proc e1 = re_proc e) by (rewrite <- E1; reflexivity).
      assert (OE : re_old e1 = re_old e) by (rewrite <- E1; reflexivity).
      rewrite KE in QU, QN.
      unfold todo, good. cbn [s_kern s_pend s1]. rewrite Q. rewrite PE, SE, KE.
      destruct (CF e He) as [(x & X1 & X2 & X3 & X4 & X5 & X6)|(X1 & X2 & X3 & X4 & X5)].
      - destruct (settled_entry s x I Q X1) as (PX & SX & KX). rewrite X2 in KX.
        rewrite X4, PX. rewrite KX.
        destruct (OLD e x He X1 X2) as (O1 & O2 & O3). rewrite E1 in O1, O2, O3.
        split; intros HQ; [split; [reflexivity|]; split; [reflexivity|]|].
        + destruct (re_set e) eqn:S.
          * intros y [<-|[]]. auto.
          * left. f_equal. rewrite <- E1, (FP e He), S. specialize (X6 eq_refl).
            match goal with |- context [apply_filters flt ?K ?P false] =>
              destruct (FX K P P false false eq_refl eq_refl eq_refl) as (F1 & F2 & F3 & _);
              set (pp := apply_filters flt K P false) in * end.
            assert (EP : pp = re_p e1).
            { rewrite <- E1, (FP e He), S. reflexivity. }
            cbn [p_if p_gw p_srcip andb] in F1, F2, F3.
            apply rparam_ext; rewrite ?F1, ?F2, ?F3, ?X6; try reflexivity; rewrite EP; assumption.
        + apply QN in HQ. unfold unchanged in HQ. apply andb_prop in HQ as [H1 H2].
          rewrite SE in H1. split; [exact H1|]. split; [|reflexivity].
          rewrite OE, X3 in H2. apply rparam_eqb_eq in H2. now rewrite H2.
      - destruct (v_out s I (re_key e) X1) as [KO _]. rewrite KO, X3, X4.
        split; intros HQ.
        + split; [reflexivity|]. split; [reflexivity|]. intros y [].
        + apply QN in HQ. unfold unchanged in HQ. rewrite OE, X2 in HQ.
          rewrite andb_false_r in HQ. discriminate. }
    { intros k Hk. cbn [s_tab s1] in Hk. rewrite K1 in Hk. apply (v_out s I). intros H. apply Hk, KS, H. }
    set (s2 := process_kernel_queue accepting s1 q) in *.
    assert (TAB2 : forall e2, In e2 (s_tab s2) -> exists e, In e l /\ re_key e2 = re_key e /\
               re_set e2 = re_set e /\ re_p e2 = re_p (finish_entry ev (s_dom s) (s_flt s) e)).
    { intros e2 H2. destruct (A4 e2 H2) as (e1 & H1 & ->). cbn [s_tab s1] in H1. unfold l1 in H1.
      apply in_map_iff in H1 as (e & <- & He). exists e. split; [exact He|]. cbn [set_flags re_key re_set re_p].
      split; [reflexivity|]. split; [now apply FS|reflexivity]. }
    assert (I2 : inv s2).
    { constructor.
      - rewrite A1. exact ND1.
      - exact A2.
      - intros k Hk. rewrite A1 in Hk. now apply A3.
      - destruct A5 as (_ & -> & _). apply (v_flt s I).
      - destruct A5 as (-> & _). cbn [s_dom s1]. intros e2 H2 S2.
        destruct (TAB2 e2 H2) as (e & He & KE & SE & PE). cbv zeta. rewrite PE, KE, (FP e He).
        rewrite SE in S2. rewrite S2. cbn [andb].
        match goal with |- context [apply_filters flt (re_key e) ?P true] => set (pp := P) end.
        destruct (FX (re_key e) pp (unit_param (s_dom s)) true true eq_refl eq_refl eq_refl)
          as (_ & _ & B0 & B1 & B2 & B3).
        rewrite B0, B1, B2, B3. repeat (split; [reflexivity|]). intros H.
        unfold pp. cbn [p_srcip]. rewrite H.
        destruct (CF e He) as [(x & X1 & X2 & X3 & X4 & X5 & X6)|(X1 & X2 & X3 & X4 & X5)]; [|exact X5].
        rewrite X5. destruct (settled_entry s x I Q X1) as (_ & SX & _).
        destruct (v_attr s I x X1 SX) as (_ & _ & _ & B4). apply B4. now rewrite X2. }
    exists s2. split; [reflexivity|]. split; [exact I2|].
    intros _ _ l0 f0 E0. injection E0 as <- <-.
    assert (KP : forall e, In e l -> re_set e = true ->
              re_p (finish_entry ev (s_dom s) (s_flt s) e) = kernel_param ev (s_dom s) (s_flt s) e).
    { intros e He S. rewrite (FP e He), S. unfold kernel_param. rewrite V4, (v_flt s I). cbn [andb].
      destruct (rd_srcip (s_dom s) && v4 (re_key e)) eqn:H; [reflexivity|].
      do 2 f_equal. 
      destruct (CF e He) as [(x & X1 & X2 & X3 & X4 & X5 & X6)|(X1 & X2 & X3 & X4 & X5)]; [|exact X5].
      rewrite X5. destruct (settled_entry s x I Q X1) as (_ & SX & _).
      destruct (v_attr s I x X1 SX) as (_ & _ & _ & B4). apply B4. now rewrite X2. }
    intros k p. rewrite (inv_sync s2 I2 k p). split.
    - intros (e2 & H2 & <- & S2 & <-). destruct (TAB2 e2 H2) as (e & He & KE & SE & PE).
      exists e. split; [exact He|]. split; [now symmetry|]. split; [congruence|].
      rewrite PE. apply KP; [exact He|congruence].
    - intros (e & He & <- & S & ->).
      assert (HK : In (re_key e) (keys (s_tab s2))).
      { rewrite A1. cbn [s_tab s1]. rewrite K1. now apply in_map. }
      apply in_map_iff in HK as (e2 & KE2 & H2). destruct (TAB2 e2 H2) as (x & Hx & KE & SE & PE).
      assert (x = e) as ->.
      { pose proof (In_find _ _ NDl Hx) as F1. pose proof (In_find _ _ NDl He) as F2.
        rewrite <- KE, KE2 in F1. congruence. }
      exists e2. split; [exact H2|]. split; [exact KE2|]. split; [congruence|]. rewrite PE. now apply KP.
  Qed.

  (** ** All routes are withdrawn *)

  Definition unset (e : rentry) : rentry := set_flags e false (re_proc e).

  Lemma unset_tab_keys l : keys (map unset l) = keys l.
  Proof. unfold keys. rewrite map_map. now apply map_ext. Qed.

  Lemma put_unset l e : In e l -> NoDup (keys l) ->
    put_entry l (unset e) = map (fun x => if re_key x =? re_key e then unset x else x) l.
  Proof.
    intros He ND. unfold put_entry. apply map_ext_in. intros x Hx.
    change (re_key (unset e)) with (re_key e).
    destruct (Z.eqb_spec (re_key x) (re_key e)) as [E|E]; [|reflexivity].
    f_equal. pose proof (In_find _ _ ND He) as F1. pose proof (In_find _ _ ND Hx) as F2.
    rewrite E in F2. congruence.
  Qed.

  (** Both loops do the same in calm executions. *)
  Lemma withdraw_loop (g : rstate * list Z -> Z -> rstate * list Z) :
    (forall s q k e, s_pend s = [] -> find_entry (s_tab s) k = Some e -> re_set e = true -> re_proc e = false ->
       g (s, q) k = (with_tab s (put_entry (s_tab s) (unset e)), add_to_queue q (unset e))) ->
    forall ks s q, s_pend s = [] -> NoDup ks -> NoDup (keys (s_tab s)) -> NoDup q ->
      (forall k, In k q -> ~ In k ks) ->
      (forall k, In k ks -> exists e, find_entry (s_tab s) k = Some e /\ re_set e = true /\ re_proc e = false) ->
      exists q', fold_left g ks (s, q) =
        (with_tab s (map (fun x => if existsb (Z.eqb (re_key x)) ks then unset x else x) (s_tab s)), q') /\
        NoDup q' /\ forall k, In k q' <-> In k q \/ In k ks.
  Proof.
    intros HG. induction ks as [|k ks IH]; intros s q PE NK ND NQ DJ ALL; cbn [fold_left].
    - exists q. split; [|split; [exact NQ|intros k; split; [auto|intros [H|[]]; exact H]]].
      f_equal. destruct s; unfold with_tab; cbn. f_equal. symmetry. apply map_id.
    - inversion NK as [|? ? N1 N2]; subst.
      destruct (ALL k (or_introl eq_refl)) as (e & F & S & P). rewrite (HG s q k e PE F S P).
      destruct (find_In _ _ _ F) as [HI HK].
      destruct (IH (with_tab s (put_entry (s_tab s) (unset e))) (add_to_queue q (unset e))) as (q' & E & NQ' & IQ).
      + exact PE.
      + exact N2.
      + cbn [s_tab with_tab]. now rewrite put_keys.
      + apply add_to_queue_NoDup; [exact NQ|]. change (re_key (unset e)) with (re_key e). rewrite HK.
        intros H. apply (DJ _ H). now left.
      + intros k' H Hk. apply add_to_queue_In in H as [->|H].
        * change (re_key (unset e)) with (re_key e) in Hk. rewrite HK in Hk. contradiction.
        * apply (DJ _ H). now right.
      + intros k' Hk. destruct (ALL k' (or_intror Hk)) as (e' & F' & R'). exists e'. split; [|exact R'].
        cbn [s_tab with_tab]. rewrite find_put_other; [exact F'|].
        change (re_key (unset e)) with (re_key e). rewrite HK. congruence.
      + exists q'. split; [|split; [exact NQ'|]].
        * rewrite E. f_equal. unfold with_tab. cbn [s_tab]. f_equal. rewrite (put_unset _ _ HI ND), map_map.
          apply map_ext_in. intros x Hx. cbn [existsb]. rewrite HK.
          destruct (Z.eqb_spec (re_key x) k) as [E1|E1]; cbn [orb]; [|reflexivity].
          change (re_key (unset x)) with (re_key x).
          destruct (existsb (Z.eqb (re_key x)) ks); reflexivity.
        * intros k'. rewrite IQ, add_to_queue_In. change (re_key (unset e)) with (re_key e). rewrite HK.
          cbn [In]. intuition congruence.
  Qed.

  Lemma withdraw_inv s s0 (g : rstate * list Z -> Z -> rstate * list Z) : inv s -> settled s ->
    (forall s q k e, s_pend s = [] -> find_entry (s_tab s) k = Some e -> re_set e = true -> re_proc e = false ->
       g (s, q) k = (with_tab s (put_entry (s_tab s) (unset e)), add_to_queue q (unset e))) ->
    s_tab s0 = s_tab s -> s_kern s0 = s_kern s -> s_pend s0 = s_pend s -> s_flt s0 = s_flt s ->
    exists s1 q, fold_left g (map re_key (s_tab s0)) (s0, []) = (s1, q) /\
      let s2 := process_kernel_queue accepting s1 q in
      inv s2 /\ s_kern s2 = [] /\ same_rest s0 s2.
  Proof.
    intros I Q HG ET EK EP EF.
    destruct (withdraw_loop g HG (map re_key (s_tab s0)) s0 []) as (q & E & NQ & IQ).
    - rewrite EP. exact Q.
    - rewrite ET. apply (v_nodup s I).
    - rewrite ET. apply (v_nodup s I).
    - constructor.
    - intros k [].
    - intros k Hk. apply find_entry_In in Hk as (e & F). exists e. split; [exact F|].
      apply find_In in F as [F _]. rewrite ET in F. destruct (settled_entry s e I Q F) as (A & B & _). auto.
    - eexists _, q. split; [exact E|].
      assert (EM : map (fun x => if existsb (Z.eqb (re_key x)) (map re_key (s_tab s0)) then unset x else x) (s_tab s0)
                   = map unset (s_tab s)).
      { rewrite ET. apply map_ext_in. intros x Hx.
        assert (existsb (Z.eqb (re_key x)) (map re_key (s_tab s)) = true) as ->; [|reflexivity].
        apply existsb_In. now apply in_map. }
      rewrite EM. set (s1 := with_tab s0 (map unset (s_tab s))).
      assert (T1 : s_tab s1 = map unset (s_tab s)) by reflexivity.
      destruct (queue_loop q s1) as (A1 & A2 & A3 & A4 & A5).
      + exact NQ.
      + rewrite T1, unset_tab_keys. apply (v_nodup s I).
      + intros k Hk. apply IQ in Hk as [[]|Hk]. rewrite T1, unset_tab_keys. rewrite ET in Hk. exact Hk.
      + intros e He. rewrite T1 in He. apply in_map_iff in He as (x & <- & Hx).
        change (re_key (unset x)) with (re_key x). split; intros H.
        * destruct (settled_entry s x I Q Hx) as (B1 & B2 & B3). unfold todo.
          change (re_key (unset x)) with (re_key x). change (re_proc (unset x)) with (re_proc x).
          change (re_set (unset x)) with false. change (re_p (unset x)) with (re_p x).
          change (s_kern s1) with (s_kern s0). change (s_pend s1) with (s_pend s0).
          rewrite EP, EK, Q. split; [exact B1|]. split; [reflexivity|]. left. exact B3.
        * exfalso. apply H, IQ. right. rewrite ET. now apply in_map.
      + intros k Hk. rewrite T1, unset_tab_keys in Hk. change (s_kern s1) with (s_kern s0).
        change (s_pend s1) with (s_pend s0). rewrite EK, EP. now apply (v_out s I).
      + set (s2 := process_kernel_queue accepting s1 q) in *.
        assert (US : forall e, In e (s_tab s2) -> re_set e = false).
        { intros e He. destruct (A4 e He) as (x & Hx & ->). rewrite T1 in Hx.
          apply in_map_iff in Hx as (y & <- & _). reflexivity. }
        assert (I2 : inv s2).
        { constructor.
          - rewrite A1, T1, unset_tab_keys. apply (v_nodup s I).
          - exact A2.
          - intros k Hk. rewrite A1 in Hk. now apply A3.
          - destruct A5 as (_ & -> & _). change (s_flt s1) with (s_flt s0). rewrite EF. apply (v_flt s I).
          - intros e He S. rewrite (US e He) in S. discriminate. }
        split; [exact I2|]. split; [|exact A5].
        destruct (s_kern s2) as [|[k p] r] eqn:K; [reflexivity|exfalso].
        assert (H : In (k, p) (s_kern s2)) by (rewrite K; now left).
        apply (inv_sync s2 I2) in H as (e & He & _ & S & _). rewrite (US e He) in S. discriminate.
  Qed.

  Lemma drop_nothing s k : s_pend s = [] -> drop_pending s k = s.
  Proof. intros H. destruct s; cbn in *. subst. reflexivity. Qed.

  Lemma params_inv s dom : inv s -> settled s -> inv (set_domain_parameter dom accepting s).
  Proof.
    intros I Q. unfold set_domain_parameter. destruct (rdomain_eqb dom (s_dom s)); [exact I|].
    set (s0 := RState (s_tab s) (s_dn s) (s_kern s) (s_pend s) (s_sent s) dom (s_flt s)
                (s_changed s) (s_shut s) (s_freeze s)).
    destruct (withdraw_inv s s0 reset_entry I Q) as (s1 & q & E & A & _); try reflexivity.
    - intros s' q' k e P F S R. cbn [reset_entry]. rewrite F, S, R. unfold unset. now rewrite R.
    - rewrite E. exact A.
  Qed.

  Lemma shutdown_inv s : inv s -> settled s ->
    inv (shutdown accepting s) /\ s_kern (shutdown accepting s) = [] /\ s_shut (shutdown accepting s) = true.
  Proof.
    intros I Q. unfold shutdown.
    set (s0 := RState (s_tab s) (s_dn s) (s_kern s) (s_pend s) (s_sent s) (s_dom s) (s_flt s)
              (s_changed s) true false).
    destruct (withdraw_inv s s0 shutdown_entry I Q) as (s1 & q & E & A & B & C); try reflexivity.
    - intros s' q' k e P F S R. cbn [shutdown_entry]. rewrite F. cbv zeta. rewrite (drop_nothing _ _ P), S.
      reflexivity.
    - rewrite E. split; [exact A|]. split; [exact B|]. destruct C as (_ & _ & _ & -> & _). reflexivity.
  Qed.

  (** ** Answers *)

  Lemma pof_find k l : match find (fun x => fst x =? k) l with
                       | Some (k', c) => k' = k /\ exists r, pof k l = c :: r
                       | None => pof k l = [] end.
  Proof.
    unfold pof. induction l as [|[k' c] l IH]; cbn [find filter fst]; [reflexivity|].
    destruct (Z.eqb_spec k' k) as [->|N]; [|exact IH]. split; [reflexivity|]. cbn [map snd]. eauto.
  Qed.
  Lemma pof_drop k k' l : pof k (filter (fun x => negb (fst x =? k')) l) = if k =? k' then [] else pof k l.
  Proof.
    unfold pof. induction l as [|[x c] l IH]; cbn [filter fst map]; [now destruct (k =? k')|].
    destruct (Z.eqb_spec x k') as [->|N]; cbn [negb].
    - rewrite IH. destruct (Z.eqb_spec k k') as [->|N']; [reflexivity|].
      destruct (Z.eqb_spec k' k); [congruence|reflexivity].
    - cbn [filter fst]. destruct (Z.eqb_spec x k) as [->|N']; [|exact IH].
      destruct (Z.eqb_spec k k'); [contradiction|]. cbn [map]. now rewrite IH.
  Qed.

  Lemma remove_keys l k x : In x (keys (remove_entry l k)) <-> In x (keys l) /\ x <> k.
  Proof.
    unfold keys, remove_entry. rewrite !in_map_iff. split.
    - intros (e & <- & H). apply filter_In in H as [H1 H2]. apply negb_true_iff, Z.eqb_neq in H2. split; eauto.
    - intros ((e & <- & H) & N). exists e. split; [reflexivity|]. apply filter_In. split; [exact H|].
      apply negb_true_iff. now apply Z.eqb_neq.
  Qed.
  Lemma remove_NoDup l k : NoDup (keys l) -> NoDup (keys (remove_entry l k)).
  Proof.
    unfold keys, remove_entry. induction l as [|e l IH]; cbn [filter map]; intros ND; [constructor|].
    inversion ND as [|? ? N1 N2]; subst. destruct (negb (re_key e =? k)); cbn [map]; [|now apply IH].
    constructor; [|now apply IH]. intros H. apply N1. apply in_map_iff in H as (x & E & H).
    apply filter_In in H as [H _]. rewrite <- E. now apply in_map.
  Qed.

  Lemma answer_inv s k : inv s -> inv (answer s k).
  Proof.
    intros I. unfold answer. pose proof (pof_find k (s_pend s)) as PF.
    destruct (find (fun x => fst x =? k) (s_pend s)) as [[k' c]|]; [|exact I].
    destruct PF as [-> (r & PF)].
    set (s1 := drop_pending s k).
    assert (P1 : forall x, pof x (s_pend s1) = if x =? k then [] else pof x (s_pend s)).
    { intros x. unfold s1. cbn [drop_pending s_pend]. apply pof_drop. }
    unfold route_finished. change (s_tab s1) with (s_tab s).
    destruct (find_entry (s_tab s) k) as [e|] eqn:F.
    2:{ assert (NK : ~ In k (keys (s_tab s))).
        { intros H. apply find_entry_In in H as (e & H). congruence. }
        destruct (v_out s I k NK) as [_ X]. rewrite X in PF. discriminate. }
    destruct (find_In _ _ _ F) as [HI HK].
    pose proof (v_good s I e HI) as G. unfold good in G. rewrite HK, PF in G.
    destruct (re_proc e) eqn:PR; [|destruct G as (_ & _ & G); discriminate].
    cbv zeta.
    assert (OTHER : forall x s2, s_kern s2 = s_kern s -> s_pend s2 = s_pend s1 -> In x (s_tab s) ->
              re_key x <> k -> good s2 x).
    { intros x s2 E1 E2 Hx N. apply (good_ext s); [now rewrite E1|rewrite E2, P1|now apply (v_good s I)].
      destruct (Z.eqb_spec (re_key x) k); [contradiction|reflexivity]. }
    destruct (re_set e) eqn:SE; cbn [negb andb].
    - destruct G as [G1 G2]. injection G2 as -> ->. change (0 =? 0) with true. cbn [negb].
      set (e1 := set_flags e true false).
      assert (K1 : re_key e1 = k) by exact HK.
      constructor.
      + cbn [s_tab with_tab]. rewrite put_keys. apply (v_nodup s I).
      + intros x Hx. cbn [s_tab with_tab] in Hx. apply In_put in Hx as [->|[Hx N]].
        * unfold good. change (re_proc e1) with false. cbv iota. change (re_set e1) with true.
          change (re_p e1) with (re_p e). rewrite K1. split; [reflexivity|]. split; [exact G1|].
          cbn [s_pend with_tab]. rewrite P1, Z.eqb_refl. reflexivity.
        * rewrite K1 in N. now apply OTHER.
      + intros x Hx. cbn [s_tab with_tab] in Hx. rewrite put_keys in Hx.
        destruct (v_out s I x Hx) as [O1 O2]. split; [exact O1|]. cbn [s_pend with_tab]. rewrite P1, O2.
        now destruct (x =? k).
      + apply (v_flt s I).
      + intros x Hx S. cbn [s_tab with_tab] in Hx. apply In_put in Hx as [->|[Hx N]].
        * apply (v_attr s I e HI SE).
        * apply (v_attr s I x Hx S).
    - destruct G as [G1 G2].
      assert (RM : inv (with_tab s1 (remove_entry (s_tab s) k))).
      { constructor.
        - cbn [s_tab with_tab]. apply remove_NoDup, (v_nodup s I).
        - intros x Hx. cbn [s_tab with_tab] in Hx. unfold remove_entry in Hx. apply filter_In in Hx as [Hx N].
          apply negb_true_iff, Z.eqb_neq in N. now apply OTHER.
        - intros x Hx. cbn [s_tab with_tab] in Hx. cbn [s_pend s_kern with_tab]. rewrite P1.
          change (s_kern s1) with (s_kern s).
          destruct (Z.eqb_spec x k) as [->|N]; [split; [exact G1|reflexivity]|].
          apply (v_out s I). intros H. apply Hx, remove_keys. auto.
        - apply (v_flt s I).
        - intros x Hx S. cbn [s_tab with_tab] in Hx. unfold remove_entry in Hx. apply filter_In in Hx as [Hx _].
          apply (v_attr s I x Hx S). }
      destruct G2 as [G2|G2]; injection G2 as -> ->.
      + change (0 =? ESRCH) with false. change (0 =? 0) with true. cbn [negb]. exact RM.
      + change (ESRCH =? ESRCH) with true. exact RM.
  Qed.

  Lemma calm_inv dom s : calm_reach v4 dom flt s -> inv s.
  Proof.
    intros H. induction H as [|s o s' R IH C E].
    - constructor.
      + apply NoDup_nil.
      + intros e [].
      + intros k _. now split.
      + reflexivity.
      + intros e [].
    - destruct C as [s ev tp nbs Q TK V4|s k|s d Q|s Q|s b|s]; cbn [rstep] in E.
      + destruct (update_inv s ev tp nbs IH Q TK V4) as (s2 & E2 & I2 & _). congruence.
      + injection E as <-. now apply answer_inv.
      + injection E as <-. now apply params_inv.
      + injection E as <-. now apply shutdown_inv.
      + injection E as <-. destruct IH as [B1 B2 B3 B4 B5]. constructor; assumption.
      + injection E as <-. destruct IH as [B1 B2 B3 B4 B5]. constructor; assumption.
  Qed.
End Calm.

(** * The order of the requests *)

Lemma result_queue_order l : forall qa qb,
  (forall k, In k qa -> exists e, In e l /\ re_key e = k /\ early (k, re_set e, re_p e) = true) ->
  (forall k, In k qb -> exists e, In e l /\ re_key e = k /\ early (k, re_set e, re_p e) = false) ->
  forall l2, (forall e, In e l2 -> In e l) ->
  exists qa' qb', fold_left (fun q e => if unchanged e then q else add_to_queue q e) l2 (qa ++ qb) = qa' ++ qb' /\
  (forall k, In k qa' -> exists e, In e l /\ re_key e = k /\ early (k, re_set e, re_p e) = true) /\
  (forall k, In k qb' -> exists e, In e l /\ re_key e = k /\ early (k, re_set e, re_p e) = false).
Proof.
  intros qa qb HA HB l2. revert qa qb HA HB. induction l2 as [|e l2 IH]; intros qa qb HA HB SUB; cbn [fold_left].
  - eauto.
  - assert (SUB' : forall x, In x l2 -> In x l) by (intros x Hx; apply SUB; now right).
    assert (HE : In e l) by (apply SUB; now left).
    destruct (unchanged e); [now apply IH|].
    assert (CASE : add_to_queue (qa ++ qb) e =
              if early (re_key e, re_set e, re_p e) then (re_key e :: qa) ++ qb else qa ++ (qb ++ [re_key e])).
    { unfold add_to_queue, early. destruct (re_set e), (p_gw (re_p e) =? 0); cbn [negb];
        rewrite <- ?app_assoc; reflexivity. }
    rewrite CASE. destruct (early (re_key e, re_set e, re_p e)) eqn:EA.
    + apply IH; [|exact HB|exact SUB']. intros k [<-|Hk]; [eauto|auto].
    + apply IH; [exact HA| |exact SUB']. intros k Hk. apply in_app_iff in Hk as [Hk|[<-|[]]]; eauto.
Qed.

Lemma queue_sent kerr b : forall q s, NoDup (keys (s_tab s)) ->
  (forall k e, In k q -> find_entry (s_tab s) k = Some e -> early (k, re_set e, re_p e) = b) ->
  exists R, s_sent (process_kernel_queue kerr s q) = s_sent s ++ R /\ Forall (fun r => early r = b) R /\
    keys (s_tab (process_kernel_queue kerr s q)) = keys (s_tab s) /\
    forall k e', find_entry (s_tab (process_kernel_queue kerr s q)) k = Some e' ->
      exists e, find_entry (s_tab s) k = Some e /\ re_set e' = re_set e /\ re_p e' = re_p e.
Proof.
  unfold process_kernel_queue. induction q as [|k q IH]; intros s ND H; cbn [fold_left].
  - exists []. rewrite app_nil_r. split; [reflexivity|]. split; [constructor|]. split; [reflexivity|]. eauto.
  - set (s1 := process_queued kerr s k).
    assert (E1 : (exists R, s_sent s1 = s_sent s ++ R /\ Forall (fun r => early r = b) R) /\
                 keys (s_tab s1) = keys (s_tab s) /\
                 forall k' e', find_entry (s_tab s1) k' = Some e' ->
                   exists e, find_entry (s_tab s) k' = Some e /\ re_set e' = re_set e /\ re_p e' = re_p e).
    { unfold s1, process_queued. destruct (find_entry (s_tab s) k) as [e|] eqn:F.
      2:{ split; [exists []; rewrite app_nil_r; split; [reflexivity|constructor]|]. split; [reflexivity|eauto]. }
      destruct (re_proc e).
      { split; [exists []; rewrite app_nil_r; split; [reflexivity|constructor]|]. split; [reflexivity|eauto]. }
      set (e1 := set_flags e (re_set e) true).
      assert (T : forall x, s_tab (os_routing_set kerr (with_tab s (put_entry (s_tab s) e1)) k x (re_p e)) =
                  put_entry (s_tab s) e1).
      { intros x. unfold os_routing_set. destruct (kerr k =? -1); [reflexivity|].
        destruct (if kerr k =? 0 then _ else _) as [kn er]. reflexivity. }
      rewrite T. split; [|split].
      - unfold os_routing_set. destruct (kerr k =? -1).
        + exists []. rewrite app_nil_r. split; [reflexivity|constructor].
        + destruct (if kerr k =? 0 then _ else _) as [kn er]. cbn [s_sent with_tab].
          exists [(k, re_set e, re_p e)]. split; [reflexivity|]. constructor; [|constructor].
          apply H; [now left|exact F].
      - apply put_keys.
      - intros k' e' F'. pose proof (find_entry_key _ _ _ F) as KE.
        destruct (Z.eq_dec k k') as [<-|N].
        + rewrite find_put_same in F'; [|exact KE|].
          2:{ apply find_entry_In. eauto. }
          injection F' as <-. exists e. auto.
        + rewrite find_put_other in F'; [eauto|]. change (re_key e1) with (re_key e). congruence. }
    destruct E1 as ((R1 & S1 & B1) & K1 & F1).
    destruct (IH s1) as (R2 & S2 & B2 & K2 & F2).
    + now rewrite K1.
    + intros k' e' Hk F'. destruct (F1 _ _ F') as (e & F & E1 & E2). rewrite E1, E2. apply H; [now right|exact F].
    + exists (R1 ++ R2). rewrite S2, S1, app_assoc. split; [reflexivity|].
      split; [apply Forall_app; auto|]. split; [congruence|].
      intros k' e' F'. destruct (F2 _ _ F') as (x & Fx & E1 & E2). destruct (F1 _ _ Fx) as (y & Fy & E3 & E4).
      exists y. split; [exact Fy|]. split; congruence.
Qed.

Lemma update_order ev tp nbs kerr s s' : topo_ok ev tp -> NoDup (keys (s_tab s)) ->
  force_update ev tp nbs kerr s = Some s' ->
  exists A B, s_sent s' = s_sent s ++ A ++ B /\ Forall (fun r => early r = true) A /\
              Forall (fun r => early r = false) B.
Proof.
  intros TK ND. unfold force_update.
  destruct (s_shut s || s_freeze s).
  { intros [= <-]. exists [], []. rewrite app_nil_r. repeat split; constructor. }
  destruct (negb (s_changed s)).
  { intros [= <-]. exists [], []. rewrite app_nil_r. repeat split; constructor. }
  destruct (calculate_routes ev tp nbs (s_dn s) (s_tab s)) as [[l f]|] eqn:E; [|discriminate].
  pose proof (calculate_NoDup ev tp nbs _ _ _ _ TK ND E) as NDl. cbn [obind].
  unfold process_dijkstra_result. cbv beta iota zeta.
  set (l1 := map (finish_entry ev (s_dom s) (s_flt s)) l).
  assert (ND1 : NoDup (keys l1)).
  { unfold l1, keys. rewrite map_map. exact NDl. }
  destruct (result_queue_order l1 [] []) with (l2 := l1) as (qa & qb & EQ & HA & HB);
    [intros k []|intros k []|auto|].
  cbn [app] in EQ. rewrite EQ. intros [= <-].
  set (s1 := RState l1 _ _ _ _ _ _ _ _ _).
  assert (UNI : forall k e x, find_entry l1 k = Some e -> In x l1 -> re_key x = k -> e = x).
  { intros k e x F Hx <-. pose proof (In_find _ _ ND1 Hx). congruence. }
  unfold process_kernel_queue. rewrite fold_left_app.
  destruct (queue_sent kerr true qa s1) as (A & S1 & B1 & K1 & F1).
  { exact ND1. }
  { intros k e Hk F. destruct (HA k Hk) as (x & Hx & Kx & EX). now rewrite (UNI k e x F Hx Kx). }
  set (s2 := fold_left (process_queued kerr) qa s1).
  change (process_kernel_queue kerr s1 qa) with s2 in *.
  destruct (queue_sent kerr false qb s2) as (B & S2 & B2 & _ & _).
  { now rewrite K1. }
  { intros k e Hk F. destruct (F1 k e F) as (y & Fy & -> & ->).
    destruct (HB k Hk) as (x & Hx & Kx & EX). now rewrite (UNI k y x Fy Hx Kx). }
  exists A, B. unfold process_kernel_queue in S2. rewrite S2, S1, app_assoc. auto.
Qed.

(** * Keys stay unique in all executions *)

Lemma route_finished_NoDup s k c : NoDup (keys (s_tab s)) -> NoDup (keys (s_tab (route_finished s k c))).
Proof.
  intros ND. unfold route_finished. destruct (find_entry (s_tab s) k) as [e|]; [|exact ND]. cbv zeta.
  repeat match goal with |- context [if ?b then _ else _] => destruct b end;
    cbn [s_tab with_tab]; first [now rewrite put_keys | now apply remove_NoDup].
Qed.
Lemma interrupt_NoDup s k : NoDup (keys (s_tab s)) -> NoDup (keys (s_tab (interrupt s k))).
Proof.
  intros ND. unfold interrupt. destruct (find _ _) as [x|]; [|exact ND]. now apply route_finished_NoDup.
Qed.
Lemma process_NoDup kerr q : forall s, NoDup (keys (s_tab s)) ->
  NoDup (keys (s_tab (process_kernel_queue kerr s q))).
Proof.
  unfold process_kernel_queue. induction q as [|k q IH]; intros s ND; cbn [fold_left]; [exact ND|].
  apply IH. unfold process_queued. destruct (find_entry (s_tab s) k) as [e|]; [|exact ND].
  destruct (re_proc e); [exact ND|]. unfold os_routing_set.
  destruct (kerr k =? -1); [cbn [s_tab with_tab]; now rewrite put_keys|].
  destruct (if kerr k =? 0 then _ else _) as [kn er]. cbn [s_tab with_tab]. now rewrite put_keys.
Qed.

Lemma rstep_NoDup s o s' : NoDup (keys (s_tab s)) ->
  match o with RUpdate ev tp _ _ => topo_ok ev tp | _ => True end ->
  rstep s o = Some s' -> NoDup (keys (s_tab s')).
Proof.
  intros ND OK E. destruct o as [ev tp nbs kerr|k| |dom kerr|kerr|b|]; cbn [rstep] in E.
  - unfold force_update in E. destruct (s_shut s || s_freeze s); [injection E as <-; exact ND|].
    destruct (negb (s_changed s)); [injection E as <-; exact ND|].
    destruct (calculate_routes ev tp nbs (s_dn s) (s_tab s)) as [[l f]|] eqn:C; [|discriminate].
    pose proof (calculate_NoDup ev tp nbs _ _ _ _ OK ND C) as NDl. cbn [obind] in E.
    unfold process_dijkstra_result in E. cbv beta iota zeta in E. injection E as <-.
    apply process_NoDup. cbn [s_tab]. unfold keys. rewrite map_map. exact NDl.
  - injection E as <-. unfold answer. destruct (find _ _) as [[x c]|]; [|exact ND].
    now apply route_finished_NoDup.
  - injection E as <-. unfold timeout. generalize (map fst (s_pend s)). intros q. revert s ND.
    induction q as [|k q IH]; intros s ND; cbn [fold_left]; [exact ND|]. apply IH, interrupt_NoDup, ND.
  - injection E as <-. unfold set_domain_parameter. destruct (rdomain_eqb dom (s_dom s)); [exact ND|].
    match goal with |- context [fold_left reset_entry ?ks (?s0, [])] =>
      assert (G : forall ks' sq, NoDup (keys (s_tab (fst sq))) ->
        NoDup (keys (s_tab (fst (fold_left reset_entry ks' sq)))));
      [|specialize (G ks (s0, []) ND); destruct (fold_left reset_entry ks (s0, [])) as [s1 q]] end.
    { induction ks' as [|k ks' IH]; intros [s1 q] N; cbn [fold_left]; [exact N|]. apply IH.
      cbn [reset_entry]. cbn [fst] in N. destruct (find_entry (s_tab s1) k) as [e|]; [|exact N].
      destruct (re_set e); [|exact N]. cbn [fst]. destruct (re_proc e).
      - apply interrupt_NoDup. cbn [s_tab with_tab]. now rewrite put_keys.
      - cbn [s_tab with_tab]. now rewrite put_keys. }
    now apply process_NoDup.
  - injection E as <-. unfold shutdown.
    match goal with |- context [fold_left shutdown_entry ?ks (?s0, [])] =>
      assert (G : forall ks' sq, NoDup (keys (s_tab (fst sq))) ->
        NoDup (keys (s_tab (fst (fold_left shutdown_entry ks' sq)))));
      [|specialize (G ks (s0, []) ND); destruct (fold_left shutdown_entry ks (s0, [])) as [s1 q]] end.
    { induction ks' as [|k ks' IH]; intros [s1 q] N; cbn [fold_left]; [exact N|]. apply IH.
      cbn [shutdown_entry]. cbn [fst] in N. destruct (find_entry (s_tab s1) k) as [e|]; [|exact N].
      cbv zeta. destruct (re_set e); cbn [fst s_tab with_tab drop_pending]; [now rewrite put_keys|exact N]. }
    now apply process_NoDup.
  - injection E as <-. exact ND.
  - injection E as <-. exact ND.
Qed.

Lemma rrun_NoDup os : forall s s', NoDup (keys (s_tab s)) ->
  (forall ev tp nbs kerr, In (RUpdate ev tp nbs kerr) os -> topo_ok ev tp) ->
  rrun s os = Some s' -> NoDup (keys (s_tab s')).
Proof.
  induction os as [|o os IH]; intros s s' ND OK E; cbn [rrun] in E; [injection E as <-; exact ND|].
  destruct (rstep s o) as [s1|] eqn:E1; [|discriminate]. cbn [obind] in E.
  apply (IH s1); [|intros ev tp nbs kerr H; apply (OK ev tp nbs kerr); now right|exact E].
  apply (rstep_NoDup s o); [exact ND| |exact E1].
  destruct o; try exact I. apply (OK ev tp nbs kerr). now left.
Qed.
