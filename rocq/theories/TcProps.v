(** Properties of the topology database and of TC messages (C79-C84). *)
From Verif Require Import Base CodecModel CodecSpec TcModel TcSpec TcProofs TcInv TcCheck.
From Verif Require DomModel DomSpec.

(** a small network for the examples: one domain with the linear metric 0 *)
Definition tc_dom := [DomModel.mkDom 0 7 false 0 0].
Definition tc_nbr (a : Z) (m : list (Z * (Z * Z))) := mkAI true a (a + 1000) m (Some 1) None.
Definition tc_gw (k : Z) (m : list (Z * (Z * Z))) := mkAI true k k m None (Some (0, [2], k)).
Definition tc_msg orig ext ansn vtime l := mkTC true true orig ext ansn vtime 5000 None true l.
Definition tc_metric (c : Z) : list (Z * (Z * Z)) := [(0, (0x30, c))].
Lemma tc_dom_ok : DomSpec.doms_ok tc_dom.
Proof. split; [vm_compute; intuition discriminate|]. split; [repeat constructor; intros []|]. repeat constructor; vm_compute; intuition discriminate. Qed.

(** ** C79: no use of freed memory *)
(** Full statement: no history of [input]s uses a freed object.  Missing: TCs that
    announce their own originator, TCs without mandatory TLV after a dropped TC,
    and routes to a prefix with several attachments. *)
Theorem C79_memory_safe_partial ds ops : DomSpec.doms_ok ds -> guarded safe ds init ops -> run ds init ops <> None.
Proof.
  intros D H. destruct init_inv as (I & _). destruct (run_inv ds D safe ltac:(auto) ops init I H) as (w & -> & _). discriminate.
Qed.

Definition tc_hist : list op :=
  [NbAdd 1; NbSet 1 (Some 10) None; Message (tc_msg 10 0 1 10000 [tc_nbr 20 (tc_metric 1); tc_gw 99 (tc_metric 2)]);
   Message (tc_msg 20 0 1 10000 [tc_nbr 10 (tc_metric 1); tc_nbr 30 (tc_metric 1)]); Message (tc_msg 20 0 2 10000 [tc_nbr 30 (tc_metric 1)]);
   Message (mkTC false true 0 0 0 10000 0 None true [tc_nbr 20 []]); Timeout 0; NbRemove 1].

Lemma reached (G : world -> op -> Prop) ds ops w : (forall w o, G w o -> timed w o) -> DomSpec.doms_ok ds -> guarded G ds init ops -> run ds init ops = Some w ->
  inv w /\ good (w_db w) None.
Proof.
  intros T D H R. destruct init_inv as (I & Gi & _). assert (S : forall w o, G w o -> safe w o) by (intros; apply T; auto).
  destruct (run_inv ds D G S ops init I H) as (w1 & E & I1 & G1 & _). assert (w1 = w) as -> by congruence. auto.
Qed.

Example C79_ex : DomSpec.doms_ok tc_dom /\ guarded safe tc_dom init tc_hist /\
  exists w, run tc_dom init tc_hist = Some w /\ length (d_tree (w_db w)) = 2%nat.
Proof. split; [exact tc_dom_ok|]. split; [apply (guardb_init 1 [1]); vm_compute; reflexivity|]. apply look. vm_compute. reflexivity. Qed.

(** A TC that announces its own originator makes an edge from a node to itself;
    the next removal of the node uses the freed edge. *)
Theorem C79_own_originator_refuted : exists ops, guarded input tc_dom init ops /\ run tc_dom init ops = None /\
  ops = [Message (tc_msg 10 0 1 10000 [tc_nbr 10 (tc_metric 1)]); Timeout 0].
Proof. eexists. split; [|split; [|reflexivity]]; [apply (guardb_init 0 []); vm_compute; reflexivity|vm_compute; reflexivity]. Qed.
(** A TC dropped as outdated leaves the pointer to its node; a later TC without
    mandatory TLV uses it after the node was removed ... *)
Theorem C79_dropped_message_refuted : exists ops, guarded input tc_dom init ops /\ run tc_dom init ops = None /\
  ops = [Message (tc_msg 10 0 5 10000 []); Message (tc_msg 10 0 4 10000 []); Timeout 0; Message (mkTC false true 0 0 0 0 0 None true [tc_nbr 20 (tc_metric 1)])].
Proof. eexists. split; [|split; [|reflexivity]]; [apply (guardb_init 0 []); vm_compute; reflexivity|vm_compute; reflexivity]. Qed.
(** ... or, when it is still there, adds the neighbors of the other router to it. *)
Definition tc_mixed : list op :=
  [Message (tc_msg 10 0 5 10000 []); Message (tc_msg 10 0 4 10000 []); Message (mkTC false true 40 0 0 0 0 None true [tc_nbr 20 (tc_metric 1)])].
Theorem C79_wrong_originator_refuted : exists w c, guarded input tc_dom init tc_mixed /\ run tc_dom init tc_mixed = Some w /\ announced (w_db w) 10 20 c.
Proof.
  destruct (look tc_dom tc_mixed (fun w => (d_nodes (w_db w) 0, d_edges (w_db w) 1, d_nodes (w_db w) 3)) _ ltac:(vm_compute; reflexivity)) as (w & R & F). injection F as F1 F2 F3.
  eexists w, _. split; [apply (guardb_init 0 []); vm_compute; reflexivity|]. split; auto.
  eexists 0, _, _. split; [exact F1|]. split; [reflexivity|]. eexists 1, _, _. split; [exact F2|]. do 4 (split; [reflexivity|]). split; [exact F3|reflexivity].
Qed.
(** Three routers announce the same prefix, the last of them times out: the
    endpoint still points to it, and the next route to the prefix reads it. *)
Theorem C79_prefix_originator_refuted : exists ops, guarded input tc_dom init ops /\ run tc_dom init ops = None /\
  ops = [Message (tc_msg 10 0 5 10000 [tc_gw 99 (tc_metric 1)]); Message (tc_msg 20 0 5 10000 [tc_gw 99 (tc_metric 1)]);
         Message (tc_msg 30 0 5 10000 [tc_gw 99 (tc_metric 1)]); Timeout 5; Route 2].
Proof. eexists. split; [|split; [|reflexivity]]; [apply (guardb_init 0 []); vm_compute; reflexivity|vm_compute; reflexivity]. Qed.

(** ** C80: consistency *)
(** Full statement: in all histories.  Missing: the ones left out in C79, and (for
    nodes that are removed in time) validity time 0 and changes of originators. *)
Theorem C80_consistent_partial ds ops w : DomSpec.doms_ok ds -> guarded safe ds init ops -> run ds init ops = Some w ->
  consistent (w_db w) /\ nb_nodes w.
Proof.
  intros D H R. destruct init_inv as (I & _). destruct (run_inv ds D safe ltac:(auto) ops init I H) as (w1 & E & I1 & _). assert (w1 = w) as -> by congruence.
  split; [apply (wf_c _ (i_wf _ I1))|apply (i_nodes _ I1)].
Qed.
Theorem C80_tidy_partial ds ops w : DomSpec.doms_ok ds -> guarded timed ds init ops -> run ds init ops = Some w -> tidy (w_db w).
Proof. intros D H R. destruct (reached timed ds ops w ltac:(auto) D H R) as (I & G). apply tidy_ok; auto. apply (i_wf _ I). Qed.
Theorem C80_neighbors_partial ds ops w : DomSpec.doms_ok ds -> guarded steady ds init ops -> run ds init ops = Some w ->
  forall a, direct (w_db w) a <-> exists i, w_nb w i = Some (Some a).
Proof.
  intros D H R. destruct init_inv as (I & G & N). assert (S : forall w o, steady w o -> safe w o) by (intros w0 o0 ((Q & _) & _); auto).
  destruct (run_inv ds D steady S ops init I H) as (w1 & E & I1 & _ & N1). assert (w1 = w) as -> by congruence. intros a. split.
  - apply N1; auto.
  - intros (i & Hi). eapply (i_nodes _ I1); eauto.
Qed.
Example C80_ex : guarded steady tc_dom init tc_hist /\ guarded timed tc_dom init tc_hist.
Proof. split; [apply (guardb_init 3 [1])|apply (guardb_init 2 [1])]; vm_compute; reflexivity. Qed.

(** With validity time 0 a router stays in the database forever. *)
Definition tc_forever : list op := [Message (tc_msg 10 0 1 0 [tc_nbr 20 (tc_metric 1)])].
Theorem C80_validity_zero_refuted : exists w n x c s, guarded safe tc_dom init tc_forever /\ run tc_dom init tc_forever = Some w /\
  d_nodes (w_db w) n = Some x /\ n_valid x = None /\ link (w_db w) n 20 c s.
Proof.
  destruct (look tc_dom tc_forever (fun w => (d_nodes (w_db w) 0, d_edges (w_db w) 1, d_nodes (w_db w) 3)) _ ltac:(vm_compute; reflexivity)) as (w & R & F). injection F as F1 F2 F3.
  eexists w, 0, _, _, _. split; [apply (guardb_init 1 []); vm_compute; reflexivity|]. split; auto. split; [exact F1|]. split; [reflexivity|].
  eexists 1, _, _. split; [exact F2|]. do 4 (split; [reflexivity|]). split; [exact F3|reflexivity].
Qed.
(** When the originator of a neighbor changes, the node with the old one stays. *)
Definition tc_renamed : list op := [NbAdd 1; NbSet 1 (Some 10) None; NbSet 1 (Some 20) None; NbRemove 1].
Theorem C80_old_originator_refuted : exists w, guarded timed tc_dom init tc_renamed /\ run tc_dom init tc_renamed = Some w /\
  direct (w_db w) 10 /\ w_nb w 1 = None /\ forall i, w_nb w i <> Some (Some 10).
Proof.
  assert (G : guarded timed tc_dom init tc_renamed) by (apply (guardb_init 2 [1]); vm_compute; reflexivity).
  destruct (look tc_dom tc_renamed (fun w => (d_nodes (w_db w) 0, w_nb w 1)) _ ltac:(vm_compute; reflexivity)) as (w & R & F). injection F as F1 F2.
  exists w. split; auto. split; auto. split; [eexists 0, _; split; [exact F1|]; split; reflexivity|]. split; auto.
  intros i Hi. assert (K : within [1] w) by (apply (run_within 2 [1] tc_dom tc_renamed w); auto; vm_compute; reflexivity).
  destruct (K i ltac:(congruence)) as [<-|[]]. congruence.
Qed.

(** ** C81: what an up-to-date TC leaves *)
(** Full statement: ... and an incomplete TC does not remove anything. *)
Theorem C81_up_to_date_tc_partial ds ops w m : DomSpec.doms_ok ds -> guarded timed ds init ops -> run ds init ops = Some w ->
  timed w (Message m) -> usable m -> up_to_date (w_db w) m ->
  exists w', step ds w (Message m) = Some w' /\
  (* other routers announce what they announced *)
  (forall A B c, A <> m_orig m -> (announced (w_db w') A B c <-> announced (w_db w) A B c)) /\
  (forall A K, A <> m_orig m -> (prefix (w_db w') A K <-> prefix (w_db w) A K)) /\
  (* the originator announces the listed neighbors, with the listed costs *)
  (forall B, lists_neighbor (m_addrs m) B -> exists c, announced (w_db w') (m_orig m) B c) /\
  (forall B c, lists_neighbor (m_addrs m) B -> announced (w_db w') (m_orig m) B c -> last_costs ds (m_addrs m) B c) /\
  (* and others only when they were announced with the same ANSN *)
  (forall B c, ~ lists_neighbor (m_addrs m) B ->
     (announced (w_db w') (m_orig m) B c <-> announced (w_db w) (m_orig m) B c /\ known (w_db w) (m_orig m) (m_ansn m))) /\
  (* the same for prefixes *)
  (forall K, prefix (w_db w') (m_orig m) K <->
     lists_prefix (types_of ds m) (m_addrs m) K \/ (prefix (w_db w) (m_orig m) K /\ known (w_db w) (m_orig m) (m_ansn m))) /\
  (* the ANSN is known *)
  (forall a s, known (w_db w') a s <-> (a = m_orig m /\ s = m_ansn m) \/ (a <> m_orig m /\ known (w_db w) a s)) /\
  w_nb w' = w_nb w.
Proof.
  intros D H R ((Im & Sm) & Vm) U T. destruct (reached timed ds ops w ltac:(auto) D H R) as (I & G). pose proof (i_wf _ I) as W. pose proof U as (Om & _). cbn in Sm, Im, Vm. rewrite Om in Sm.
  destruct (message_ok ds D (w_db w) m W (i_ansn _ I) Im Om Sm) as [(N & _)|[(_ & N & _)|(_ & _ & d' & n & s' & E & _ & M)]]; [contradiction|contradiction|].
  cbn [step]. rewrite E. cbn [fst snd]. eexists. split; [reflexivity|]. cbn [w_db w_nb].
  split; [intros; eapply acc_others; eauto|]. split; [intros; eapply acc_others_prefix; eauto|]. split; [intros B L; eapply acc_listed; eauto|].
  split; [intros B c L; apply (proj2 (acc_listed ds _ _ _ _ M B L))|]. split; [intros B c L; eapply acc_unlisted; eauto|]. split; [intros K; eapply acc_prefix; eauto|]. split; [|reflexivity].
  intros a s. eapply acc_known; eauto.
Qed.
(** no two costs for the same pair of routers *)
Theorem C81_one_cost_partial ds ops w A B c c' : DomSpec.doms_ok ds -> guarded safe ds init ops -> run ds init ops = Some w ->
  announced (w_db w) A B c -> announced (w_db w) A B c' -> c = c'.
Proof.
  intros D H R (n & x & s & H1 & H2 & (e & y & z & L1 & L2 & L3 & L4 & L5 & L6 & L7)) (n' & x' & s' & H1' & H2' & (e' & y' & z' & L1' & L2' & L3' & L4' & L5' & L6' & L7')).
  destruct (C80_consistent_partial ds ops w D H R) as (C & _). assert (n' = n) as -> by (apply (c_addr _ C _ _ _ _ H1' H1); congruence).
  assert (e_dst y' = e_dst y) as Q by (apply (c_addr _ C _ _ _ _ L6' L6); congruence). assert (e' = e) as -> by (apply (c_one _ C _ _ _ _ L1' L1); congruence). congruence.
Qed.
Definition tc_tc81 : tcmsg := tc_msg 20 0 3 10000 [tc_nbr 10 (tc_metric 7); tc_gw 98 []; tc_nbr 40 []].
Example C81_ex : exists w, run tc_dom init (firstn 5 tc_hist) = Some w /\ guarded timed tc_dom init (firstn 5 tc_hist) /\
  timed w (Message tc_tc81) /\ usable tc_tc81 /\ up_to_date (w_db w) tc_tc81 /\ announced (w_db w) 20 30 [2; 16777215; 16777215; 16777215].
Proof.
  destruct (look tc_dom (firstn 5 tc_hist) (fun w => (d_nodes (w_db w) 3, d_edges (w_db w) 6, d_nodes (w_db w) 8)) _ ltac:(vm_compute; reflexivity)) as (w & R & F). injection F as F1 F2 F3.
  assert (Gd : guarded timed tc_dom init (firstn 5 tc_hist ++ [Message tc_tc81])) by (apply (guardb_init 2 [1]); vm_compute; reflexivity).
  destruct (guarded_snoc _ _ _ _ _ _ Gd R) as (Gr & Gm). destruct (reached timed tc_dom _ w ltac:(auto) tc_dom_ok Gr R) as (I & _).
  exists w. split; auto. split; auto. split; auto. split; [repeat split; auto|]. split.
  - unfold up_to_date. change (m_ext tc_tc81 =? 0) with true. cbv iota. intros s K (k & Bk & A).
    apply (known_at _ _ _ _ (i_wf _ I) F1) in K. destruct K as (_ & K). cbn [n_ansn] in K. subst s. unfold ahead in A. cbn [m_ansn tc_tc81 tc_msg] in A.
    rewrite Z.mod_small in A by lia. lia.
  - eexists 3, _, _. split; [exact F1|]. split; [reflexivity|]. eexists 6, _, _. split; [exact F2|]. do 4 (split; [reflexivity|]). split; [exact F3|reflexivity].
Qed.

(** An incomplete TC removes the neighbors it does not list ... *)
Definition tc_first : list op := [Message (tc_msg 10 0 1 10000 [tc_nbr 20 (tc_metric 1)])].
Definition tc_part : tcmsg := tc_msg 10 1 2 10000 [tc_nbr 30 (tc_metric 1)].
Theorem C81_incomplete_removes_refuted : exists w w' c, guarded timed tc_dom init (tc_first ++ [Message tc_part]) /\ run tc_dom init tc_first = Some w /\
  step tc_dom w (Message tc_part) = Some w' /\ announced (w_db w) 10 20 c /\ forall c', ~ announced (w_db w') 10 20 c'.
Proof.
  destruct (look tc_dom tc_first (fun w => (d_nodes (w_db w) 0, d_edges (w_db w) 1, d_nodes (w_db w) 3)) _ ltac:(vm_compute; reflexivity)) as (w & R & F). injection F as F1 F2 F3.
  assert (Gd : guarded timed tc_dom init (tc_first ++ [Message tc_part])) by (apply (guardb_init 2 []); vm_compute; reflexivity).
  destruct (guarded_snoc _ _ _ _ _ _ Gd R) as (Gr & Gm). destruct (reached timed tc_dom _ w ltac:(auto) tc_dom_ok Gr R) as (I & _).
  assert (Kn : forall s, known (w_db w) 10 s <-> s = 1). { intros s. rewrite (known_at _ _ _ s (i_wf _ I) F1). cbn. split; [intros (_ & <-); auto|]. intros ->. split; [discriminate|auto]. }
  destruct (C81_up_to_date_tc_partial tc_dom tc_first w tc_part tc_dom_ok Gr R Gm) as (w' & E & _ & _ & _ & _ & Un & _).
  - repeat split; auto.
  - exists 1. split; [apply Kn; auto|]. exists 1. split; [lia|]. reflexivity.
  - eexists w, w', _. split; auto. split; auto. split; auto. split.
    + eexists 0, _, _. split; [exact F1|]. split; [reflexivity|]. eexists 1, _, _. split; [exact F2|]. do 4 (split; [reflexivity|]). split; [exact F3|reflexivity].
    + intros c' H. apply Un in H. { destruct H as (_ & H). apply Kn in H. discriminate. }
      intros (a & Ia & _ & Ea). cbn in Ia. destruct Ia as [<-|[]]. discriminate.
Qed.

(** ** C82: outdated and unusable TCs *)
(** Full statement: an outdated TC changes nothing.  Missing: the validity time. *)
Theorem C82_outdated_tc_partial ds ops w m : DomSpec.doms_ok ds -> guarded timed ds init ops -> run ds init ops = Some w ->
  timed w (Message m) -> usable m -> ~ up_to_date (w_db w) m ->
  exists w', step ds w (Message m) = Some w' /\
  (forall A B c, announced (w_db w') A B c <-> announced (w_db w) A B c) /\
  (forall A K, prefix (w_db w') A K <-> prefix (w_db w) A K) /\
  (forall a s, a <> m_orig m -> (known (w_db w') a s <-> known (w_db w) a s)) /\
  (forall s, known (w_db w) (m_orig m) s -> known (w_db w') (m_orig m) s) /\
  d_log (w_db w') = d_log (w_db w) /\ w_nb w' = w_nb w.
Proof.
  intros D H R ((Im & Sm) & Vm) U T. destruct (reached timed ds ops w ltac:(auto) D H R) as (I & G). pose proof (i_wf _ I) as W. pose proof U as (Om & _). cbn in Sm, Im, Vm. rewrite Om in Sm.
  destruct (message_ok ds D (w_db w) m W (i_ansn _ I) Im Om Sm) as [(N & _)|[(_ & _ & d' & n & x & s' & E & NS & Ax & Vx & _ & Kx & _)|(_ & N & _)]]; [contradiction| |contradiction].
  cbn [step]. rewrite E. cbn [fst snd]. eexists. split; [reflexivity|]. cbn [w_db w_nb].
  split; [intros; eapply set_announced; eauto|]. split; [intros; eapply set_prefix; eauto|]. split; [intros a s Na; eapply set_known; eauto; congruence|]. split; [|split; [apply (ns_only _ _ _ _ NS)|reflexivity]].
  intros s K. exists n, x. split; [apply (ns_node _ _ _ _ NS)|]. split; auto. split; [|apply Kx; auto]. rewrite Vx. unfold timer_set. destruct (Z.eqb_spec (m_vtime m) 0); congruence.
Qed.
Theorem C82_unusable_tc ds ops w m : DomSpec.doms_ok ds -> guarded safe ds init ops -> run ds init ops = Some w ->
  safe w (Message m) -> ~ usable m -> exists w', step ds w (Message m) = Some w' /\ w_db w' = w_db w /\ w_nb w' = w_nb w.
Proof.
  intros D H R Sf U. destruct init_inv as (I0 & _). destruct (run_inv ds D safe ltac:(auto) ops init I0 H) as (w1 & E1 & I & _). assert (w1 = w) as -> by congruence.
  cbn [step]. destruct (m_ok m) eqn:Om.
  - destruct Sf as (Im & Sm). rewrite Om in Sm. destruct (message_ok ds D (w_db w) m (i_wf _ I) (i_ansn _ I) Im Om Sm) as [(_ & s' & E)|[(N & _)|(N & _)]]; [|contradiction|contradiction].
    rewrite E. eexists. split; [reflexivity|]. auto.
  - destruct (unused_ok ds w m I Sf Om D) as (s & E). rewrite E. eexists. split; [reflexivity|]. auto.
Qed.
Definition tc_old : tcmsg := tc_msg 10 0 65535 1000000 [tc_nbr 40 []].
Lemma tc_old_ok : exists w, run tc_dom init tc_first = Some w /\ guarded timed tc_dom init (tc_first ++ [Message tc_old]) /\ guarded timed tc_dom init tc_first /\ timed w (Message tc_old) /\
  usable tc_old /\ ~ up_to_date (w_db w) tc_old /\ valid_for (w_db w) 10 10000.
Proof.
  destruct (look tc_dom tc_first (fun w => d_nodes (w_db w) 0) _ ltac:(vm_compute; reflexivity)) as (w & R & F1).
  assert (Gd : guarded timed tc_dom init (tc_first ++ [Message tc_old])) by (apply (guardb_init 2 []); vm_compute; reflexivity).
  destruct (guarded_snoc _ _ _ _ _ _ Gd R) as (Gr & Gm). destruct (reached timed tc_dom _ w ltac:(auto) tc_dom_ok Gr R) as (I & _).
  exists w. split; auto. split; auto. split; auto. split; auto. split; [repeat split; auto|]. split; [|eexists 0, _; split; [exact F1|]; split; reflexivity].
  intros Q. unfold up_to_date in Q. change (m_ext tc_old =? 0) with true in Q. cbv iota in Q. apply (Q 1).
  - apply (known_at _ _ _ _ (i_wf _ I) F1). split; [discriminate|reflexivity].
  - exists 2. split; [lia|reflexivity].
Qed.
Example C82_ex : exists w, run tc_dom init tc_first = Some w /\ guarded timed tc_dom init tc_first /\ timed w (Message tc_old) /\ usable tc_old /\ ~ up_to_date (w_db w) tc_old.
Proof. destruct tc_old_ok as (w & H1 & _ & H2 & H3 & H4 & H5 & _). exists w. auto. Qed.
Example C82_ex_unusable : exists w, run tc_dom init tc_first = Some w /\ safe w (Message (tc_msg 10 7 2 10000 [tc_nbr 40 []])) /\ ~ usable (tc_msg 10 7 2 10000 [tc_nbr 40 []]).
Proof.
  destruct tc_old_ok as (w & H1 & _). exists w. split; auto. assert (Gd : guarded safe tc_dom init (tc_first ++ [Message (tc_msg 10 7 2 10000 [tc_nbr 40 []])])) by (apply (guardb_init 1 []); vm_compute; reflexivity).
  destruct (guarded_snoc _ _ _ _ _ _ Gd H1) as (_ & Q). split; auto. intros (_ & _ & [E|E] & _); discriminate.
Qed.
(** An outdated TC sets the validity time of the router. *)
Theorem C82_validity_refuted : exists w w', run tc_dom init tc_first = Some w /\ timed w (Message tc_old) /\ usable tc_old /\ ~ up_to_date (w_db w) tc_old /\
  step tc_dom w (Message tc_old) = Some w' /\ valid_for (w_db w) 10 10000 /\ valid_for (w_db w') 10 1000000.
Proof.
  destruct tc_old_ok as (w & H1 & _ & H2 & H3 & H4 & H5 & H6). destruct (C82_outdated_tc_partial tc_dom tc_first w tc_old tc_dom_ok H2 H1 H3 H4 H5) as (w' & E & _).
  exists w, w'. repeat (split; [assumption|]). destruct (look tc_dom (tc_first ++ [Message tc_old]) (fun w => d_nodes (w_db w) 0) _ ltac:(vm_compute; reflexivity)) as (w2 & R2 & F2).
  pose proof (run_snoc _ _ _ _ _ H1 R2) as E2. assert (w2 = w') as -> by congruence.
  eexists 0, _. split; [exact F2|]. split; reflexivity.
Qed.
(** Of several incomplete TCs with the same ANSN only the first is used, and the
    first of all TCs of a router is not used when it is incomplete. *)
Theorem C82_incomplete_refuted : exists w w', guarded timed tc_dom init (tc_first ++ [Message tc_part; Message (tc_msg 10 1 2 10000 [tc_nbr 40 (tc_metric 1)])]) /\
  run tc_dom init (tc_first ++ [Message tc_part]) = Some w /\ step tc_dom w (Message (tc_msg 10 1 2 10000 [tc_nbr 40 (tc_metric 1)])) = Some w' /\
  forall c, ~ announced (w_db w') 10 40 c.
Proof.
  set (m := tc_msg 10 1 2 10000 [tc_nbr 40 (tc_metric 1)]). set (ops := tc_first ++ [Message tc_part]).
  destruct (look tc_dom ops (fun w => (d_nodes (w_db w) 0, map (d_nodes (w_db w)) (d_tree (w_db w)))) _ ltac:(vm_compute; reflexivity)) as (w & R & F). injection F as F1 F2.
  assert (Gd : guarded timed tc_dom init (ops ++ [Message m])) by (apply (guardb_init 2 []); vm_compute; reflexivity).
  destruct (guarded_snoc _ _ _ _ _ _ Gd R) as (Gr & Gm). destruct (reached timed tc_dom _ w ltac:(auto) tc_dom_ok Gr R) as (I & _).
  destruct (C82_outdated_tc_partial tc_dom ops w m tc_dom_ok Gr R Gm) as (w' & E & An & _).
  - repeat split; auto.
  - intros (s & K & k & Bk & A). apply (known_at _ _ _ _ (i_wf _ I) F1) in K. destruct K as (_ & <-). unfold ahead in A. cbn in A. assert (k = 0 \/ 2 + k < 65536) as [->|L] by lia; [lia|]. rewrite Z.mod_small in A by lia. lia.
  - exists w, w'. split; auto. split; auto. split; auto. intros c H. apply An in H. destruct H as (n & x & s & _ & _ & e & y & z & _ & _ & _ & _ & _ & Hz & Az).
    assert (In (d_nodes (w_db w) (e_dst y)) (map (d_nodes (w_db w)) (d_tree (w_db w)))) as Q by (apply in_map; apply (proj2 (c_tree _ (wf_c _ (i_wf _ I)))); congruence).
    rewrite F2, Hz in Q. cbn in Q. repeat (destruct Q as [Q|Q]; [injection Q as <-; discriminate|]). destruct Q.
Qed.
Theorem C82_first_incomplete_refuted : exists w', guarded timed tc_dom init [Message (tc_msg 10 1 2 10000 [tc_nbr 40 (tc_metric 1)])] /\
  step tc_dom init (Message (tc_msg 10 1 2 10000 [tc_nbr 40 (tc_metric 1)])) = Some w' /\ (exists s, known (w_db w') 10 s) /\ forall c, ~ announced (w_db w') 10 40 c.
Proof.
  set (m := tc_msg 10 1 2 10000 [tc_nbr 40 (tc_metric 1)]).
  destruct (look tc_dom [Message m] (fun w => (d_nodes (w_db w) 0, map (d_nodes (w_db w)) (d_tree (w_db w)))) _ ltac:(vm_compute; reflexivity)) as (w & R & F). injection F as F1 F2.
  assert (Gd : guarded timed tc_dom init [Message m]) by (apply (guardb_init 2 []); vm_compute; reflexivity).
  destruct (reached timed tc_dom _ w ltac:(auto) tc_dom_ok Gd R) as (I & _). exists w. split; auto. split; [exact (run_snoc tc_dom [] (Message m) init w eq_refl R)|]. split.
  - eexists _, 0, _. split; [exact F1|]. split; [reflexivity|]. split; [discriminate|reflexivity].
  - intros c (n & x & s & _ & _ & e & y & z & _ & _ & _ & _ & _ & Hz & Az).
    assert (In (d_nodes (w_db w) (e_dst y)) (map (d_nodes (w_db w)) (d_tree (w_db w)))) as Q by (apply in_map; apply (proj2 (c_tree _ (wf_c _ (i_wf _ I)))); congruence).
    rewrite F2, Hz in Q. cbn in Q. repeat (destruct Q as [Q|Q]; [injection Q as <-; discriminate|]). destruct Q.
Qed.

(** ** C83: recalculation of routes *)
(** Full statement: each change of what routers announce is told to the routing.
    Missing: neighbors whose cost becomes infinite, new prefixes and changed costs
    and distances of prefixes. *)
Theorem C83_told_partial ds ops w m : DomSpec.doms_ok ds -> guarded timed ds init ops -> run ds init ops = Some w ->
  timed w (Message m) -> usable m -> up_to_date (w_db w) m ->
  exists w' t, step ds w (Message m) = Some w' /\ d_log (w_db w') = d_log (w_db w) ++ t /\
  (* domains with a cost for a listed neighbor *)
  (forall B c i x, lists_neighbor (m_addrs m) B -> announced (w_db w') (m_orig m) B c -> zget c i = Some x -> x <= METRIC_MAX ->
     0 <= i < zlen ds -> In (Some i) t) /\
  (* neighbors and prefixes that are gone *)
  (forall B c, announced (w_db w) (m_orig m) B c -> (forall c', ~ announced (w_db w') (m_orig m) B c') -> In None t) /\
  (forall K, prefix (w_db w) (m_orig m) K -> ~ prefix (w_db w') (m_orig m) K -> In None t).
Proof.
  intros D H R ((Im & Sm) & Vm) U T. destruct (reached timed ds ops w ltac:(auto) D H R) as (I & G). pose proof (i_wf _ I) as W. pose proof U as (Om & _). cbn in Sm, Im, Vm. rewrite Om in Sm.
  destruct (message_ok ds D (w_db w) m W (i_ansn _ I) Im Om Sm) as [(N & _)|[(_ & N & _)|(_ & _ & d' & n & s' & E & _ & M)]]; [contradiction|contradiction|].
  destruct (me_log _ _ _ _ _ M) as (k & t & El & K1 & K2 & K3). cbn [step]. rewrite E. cbn [fst snd]. eexists _, (repeat None k ++ t). split; [reflexivity|]. cbn [w_db]. split; auto.
  assert (Kn : k <> 0%nat -> In None (repeat (@None Z) k ++ t)) by (intros Q; apply in_or_app; left; destruct k; [congruence|left; auto]).
  split; [|split].
  - intros B c i x L A Hx Mx Bi. apply in_or_app. right. apply (acc_own ds _ _ _ _ M) in A. eapply K3; eauto.
  - intros B c A N. apply Kn. destruct (acc_before ds _ _ _ _ M _ _ A) as (s & Ls).
    assert (NL : ~ lists_neighbor (m_addrs m) B) by (intros L; destruct (me_new _ _ _ _ _ M B L) as (c' & Q); apply (N c'); apply (acc_own ds _ _ _ _ M); auto).
    apply (K1 B c s); auto. intros ->. apply (N c). apply (acc_own ds _ _ _ _ M). apply (me_keep _ _ _ _ _ M); auto.
  - intros K A N. apply Kn. destruct (acc_before_prefix ds _ _ _ _ G M _ A) as (s & Ls).
    apply (K2 K s); auto; [|intros L; apply N; apply (acc_own_prefix ds _ _ _ _ M); apply (me_att_new _ _ _ _ _ M); auto].
    intros ->. apply N. apply (acc_own_prefix ds _ _ _ _ M). apply (me_att_keep _ _ _ _ _ M); auto.
Qed.
Example C83_ex : exists w w', run tc_dom init (firstn 5 tc_hist) = Some w /\ timed w (Message tc_tc81) /\ step tc_dom w (Message tc_tc81) = Some w' /\
  d_log (w_db w') = d_log (w_db w) ++ [None; None; Some 0].
Proof.
  destruct (look tc_dom (firstn 5 tc_hist) (fun w => d_log (w_db w)) _ ltac:(vm_compute; reflexivity)) as (w & R & F).
  destruct (look tc_dom (firstn 5 tc_hist ++ [Message tc_tc81]) (fun w => d_log (w_db w)) _ ltac:(vm_compute; reflexivity)) as (w' & R' & F').
  assert (Gd : guarded timed tc_dom init (firstn 5 tc_hist ++ [Message tc_tc81])) by (apply (guardb_init 2 [1]); vm_compute; reflexivity).
  destruct (guarded_snoc _ _ _ _ _ _ Gd R) as (_ & Gm). exists w, w'. split; auto. split; auto. split; [eapply run_snoc; eauto|]. rewrite F, F'. reflexivity.
Qed.
(** The cost of a neighbor becomes infinite and nobody is told. *)
Definition tc_both : list op := [Message (tc_msg 10 0 1 10000 [tc_nbr 20 (tc_metric 1)]); Message (tc_msg 20 0 1 10000 [tc_nbr 10 (tc_metric 1)])].
Theorem C83_lost_metric_refuted : exists w w' c c', guarded timed tc_dom init (tc_both ++ [Message (tc_msg 10 0 2 10000 [tc_nbr 20 []])]) /\
  run tc_dom init tc_both = Some w /\ step tc_dom w (Message (tc_msg 10 0 2 10000 [tc_nbr 20 []])) = Some w' /\
  announced (w_db w) 10 20 c /\ announced (w_db w') 10 20 c' /\ zget c 0 = Some 2 /\ zget c' 0 = Some METRIC_INFINITE /\ d_log (w_db w') = d_log (w_db w).
Proof.
  destruct (look tc_dom tc_both (fun w => (d_nodes (w_db w) 0, d_edges (w_db w) 1, d_nodes (w_db w) 3, d_log (w_db w))) _ ltac:(vm_compute; reflexivity)) as (w & R & F). injection F as F1 F2 F3 F4.
  destruct (look tc_dom (tc_both ++ [Message (tc_msg 10 0 2 10000 [tc_nbr 20 []])]) (fun w => (d_nodes (w_db w) 0, d_edges (w_db w) 1, d_nodes (w_db w) 3, d_log (w_db w))) _ ltac:(vm_compute; reflexivity)) as (w' & R' & F'). injection F' as F1' F2' F3' F4'.
  eexists w, w', _, _. split; [apply (guardb_init 2 []); vm_compute; reflexivity|]. split; auto. split; [eapply run_snoc; eauto|]. split; [|split; [|split; [|split]]].
  - eexists 0, _, _. split; [exact F1|]. split; [reflexivity|]. eexists 1, _, _. split; [exact F2|]. do 4 (split; [reflexivity|]). split; [exact F3|reflexivity].
  - eexists 0, _, _. split; [exact F1'|]. split; [reflexivity|]. eexists 1, _, _. split; [exact F2'|]. do 4 (split; [reflexivity|]). split; [exact F3'|reflexivity].
  - reflexivity.
  - reflexivity.
  - rewrite F4, F4'. reflexivity.
Qed.
(** A new prefix is not told, neither is another cost of it. *)
Theorem C83_prefix_refuted : exists w w' w'' c c', guarded timed tc_dom init [Message (tc_msg 10 0 1 10000 []); Message (tc_msg 10 0 2 10000 [tc_gw 99 (tc_metric 1)]); Message (tc_msg 10 0 3 10000 [tc_gw 99 (tc_metric 9)])] /\
  run tc_dom init [Message (tc_msg 10 0 1 10000 [])] = Some w /\ step tc_dom w (Message (tc_msg 10 0 2 10000 [tc_gw 99 (tc_metric 1)])) = Some w' /\
  step tc_dom w' (Message (tc_msg 10 0 3 10000 [tc_gw 99 (tc_metric 9)])) = Some w'' /\
  ~ prefix (w_db w) 10 99 /\ reached_at (w_db w') 10 99 c [2; 0; 0; 0] /\ reached_at (w_db w'') 10 99 c' [2; 0; 0; 0] /\ c <> c' /\ d_log (w_db w) = [] /\ d_log (w_db w') = [] /\ d_log (w_db w'') = [].
Proof.
  set (o1 := Message (tc_msg 10 0 1 10000 [])). set (o2 := Message (tc_msg 10 0 2 10000 [tc_gw 99 (tc_metric 1)])). set (o3 := Message (tc_msg 10 0 3 10000 [tc_gw 99 (tc_metric 9)])).
  destruct (look tc_dom [o1] (fun w => (d_eptree (w_db w), d_log (w_db w))) _ ltac:(vm_compute; reflexivity)) as (w & R & F). injection F as F1 F2.
  destruct (look tc_dom ([o1] ++ [o2]) (fun w => (d_nodes (w_db w) 0, d_atts (w_db w) 1, d_eps (w_db w) 2, d_log (w_db w))) _ ltac:(vm_compute; reflexivity)) as (w' & R' & F'). injection F' as F1' F2' F3' F4'.
  destruct (look tc_dom (([o1] ++ [o2]) ++ [o3]) (fun w => (d_nodes (w_db w) 0, d_atts (w_db w) 1, d_eps (w_db w) 2, d_log (w_db w))) _ ltac:(vm_compute; reflexivity)) as (w2 & R2 & F'). injection F' as F1'' F2'' F3'' F4''.
  assert (Gd : guarded timed tc_dom init [o1; o2; o3]) by (apply (guardb_init 2 []); vm_compute; reflexivity).
  assert (G1 : guarded timed tc_dom init [o1]) by (apply (guardb_init 2 []); vm_compute; reflexivity). destruct (reached timed tc_dom _ w ltac:(auto) tc_dom_ok G1 R) as (I & _).
  eexists w, w', w2, _, _. split; auto. split; auto. split; [eapply run_snoc; eauto|]. split; [eapply run_snoc; eauto|]. split; [|split; [|split; [|split]]].
  - intros (n & x & s & _ & _ & a & y & p & _ & _ & _ & Hp & _). assert (In (a_dst y) (d_eptree (w_db w))) as Q by (apply (proj2 (c_eptree _ (wf_c _ (i_wf _ I)))); congruence). rewrite F1 in Q. destruct Q.
  - eexists 0, _, 1, _, _. split; [exact F1'|]. split; [reflexivity|]. split; [exact F2'|]. split; [reflexivity|]. split; [exact F3'|]. split; [reflexivity|]. split; reflexivity.
  - eexists 0, _, 1, _, _. split; [exact F1''|]. split; [reflexivity|]. split; [exact F2''|]. split; [reflexivity|]. split; [exact F3''|]. split; [reflexivity|]. split; reflexivity.
  - discriminate.
  - auto.
Qed.

(** ** C84: the validity time of a router passes *)
(** Full statement: in all histories (see C79, C80). *)
Theorem C84_timeout_partial ds ops w n x : DomSpec.doms_ok ds -> guarded timed ds init ops -> run ds init ops = Some w ->
  d_nodes (w_db w) n = Some x -> n_valid x <> None ->
  exists w' t, step ds w (Timeout n) = Some w' /\
  (forall A B c, announced (w_db w') A B c <-> announced (w_db w) A B c /\ A <> n_addr x) /\
  (forall A K, prefix (w_db w') A K <-> prefix (w_db w) A K /\ A <> n_addr x) /\
  (forall a s, known (w_db w') a s <-> known (w_db w) a s /\ a <> n_addr x) /\
  (* the node itself stays only for a neighbor or another router *)
  (forall m y, d_nodes (w_db w') m = Some y -> n_addr y = n_addr x -> n_direct x = true \/ exists A c, announced (w_db w) A (n_addr x) c) /\
  (* the routing is told *)
  d_log (w_db w') = d_log (w_db w) ++ t /\ In None t /\ w_nb w' = w_nb w.
Proof.
  intros D H R Hx V. destruct (reached timed ds ops w ltac:(auto) D H R) as (I & G). pose proof (i_wf _ I) as W. destruct (timer_stopped _ _ _ W Hx) as (d1 & E1 & NS). pose proof (ns_wf _ _ _ _ NS) as W1. pose proof (ns_node _ _ _ _ NS) as Hx1.
  destruct (remove_ok d1 n _ W1 Hx1 eq_refl) as (d' & E' & NG). destruct (ng_log _ _ _ NG) as (k & Nk & El). destruct (ns_only _ _ _ _ NS) as (O1 & O2 & O3 & O4 & O5).
  assert (G1 : good d1 (Some n)) by (apply (good_node (w_db w) d1 n None); auto; apply (ns_nodes _ _ _ _ NS)).
  cbn [step]. rewrite E1, E'. eexists _, (repeat None k). split; [reflexivity|]. cbn [w_db w_nb].
  assert (An : forall A B c, announced d' A B c <-> announced (w_db w) A B c /\ A <> n_addr x).
  { intros A B c. rewrite (gone_announced d1 d' n _ W1 Hx1 NG A B c). rewrite (set_announced _ _ _ _ A B c W NS). reflexivity. }
  split; auto. split; [|split; [|split; [|split; [congruence|split; [destruct k; [congruence|left; auto]|reflexivity]]]]].
  - intros A K. rewrite (gone_prefix d1 d' n _ W1 Hx1 NG A K G1). rewrite (set_prefix _ _ _ _ A K W NS). reflexivity.
  - intros a s. rewrite (gone_known d1 d' n (nd_valid None x) NG a s eq_refl). apply (stopped_known _ _ _ _ a s W Hx NS).
  - intros m y Hy Ay. pose proof (ng_wf _ _ _ NG) as W'. destruct (gone_back d1 d' n NG _ _ Hy) as (z & Hz & (Q1 & _ & Q3 & Q4)).
    assert (m = n) as -> by (apply (c_addr _ (wf_c _ W1) _ _ _ _ Hz Hx1); cbn; congruence). assert (z = nd_valid None x) as -> by congruence. cbn in Q3, Q4.
    destruct (tidy_ok d' W' (ng_good _ _ _ NG G1) n y Hy Q3) as (_ & _ & [Q|(j & c & s & Lk)]); [left; congruence|right].
    destruct (link_src _ _ _ _ _ W' Lk) as (u & Hu). exists (n_addr u), c. apply An. rewrite <- Ay. exists j, u, s. auto.
Qed.
Example C84_ex : exists w x c, run tc_dom init (firstn 5 tc_hist) = Some w /\ d_nodes (w_db w) 3 = Some x /\ n_valid x <> None /\ announced (w_db w) 20 30 c /\ announced (w_db w) 10 20 c.
Proof.
  destruct (look tc_dom (firstn 5 tc_hist) (fun w => (d_nodes (w_db w) 3, d_edges (w_db w) 6, d_nodes (w_db w) 8, d_nodes (w_db w) 0, d_edges (w_db w) 1)) _ ltac:(vm_compute; reflexivity)) as (w & R & F). injection F as F1 F2 F3 F4 F5.
  eexists w, _, _. split; auto. split; [exact F1|]. split; [discriminate|]. split.
  - eexists 3, _, _. split; [exact F1|]. split; [reflexivity|]. eexists 6, _, _. split; [exact F2|]. do 4 (split; [reflexivity|]). split; [exact F3|reflexivity].
  - eexists 0, _, _. split; [exact F4|]. split; [reflexivity|]. eexists 1, _, _. split; [exact F5|]. do 4 (split; [reflexivity|]). split; [exact F1|reflexivity].
Qed.

Print Assumptions C79_memory_safe_partial.
Print Assumptions C79_own_originator_refuted.
Print Assumptions C79_dropped_message_refuted.
Print Assumptions C79_wrong_originator_refuted.
Print Assumptions C79_prefix_originator_refuted.
Print Assumptions C80_consistent_partial.
Print Assumptions C80_tidy_partial.
Print Assumptions C80_neighbors_partial.
Print Assumptions C80_validity_zero_refuted.
Print Assumptions C80_old_originator_refuted.
Print Assumptions C81_up_to_date_tc_partial.
Print Assumptions C81_one_cost_partial.
Print Assumptions C81_incomplete_removes_refuted.
Print Assumptions C82_outdated_tc_partial.
Print Assumptions C82_unusable_tc.
Print Assumptions C82_validity_refuted.
Print Assumptions C82_incomplete_refuted.
Print Assumptions C82_first_incomplete_refuted.
Print Assumptions C83_told_partial.
Print Assumptions C83_lost_metric_refuted.
Print Assumptions C83_prefix_refuted.
Print Assumptions C84_timeout_partial.
