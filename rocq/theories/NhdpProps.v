(** Properties of the NHDP database: C67, C68, C70, C71, C72. *)
From Verif Require Import Base NhdpModel NhdpSpec NhdpProofs NhdpHello NhdpCounts.

(** ** Example node with the interfaces 1 and 2, own addresses 101 and 102 *)
Definition ex_env : env :=
  {| e_own := fun i a => addr_eqb a (2, 100 + i); e_any := fun a => (100 <=? snd a) && (snd a <? 110); e_orig := fun _ => UNSPEC;
     e_mac := fun _ => (5, 1); e_nhold := fun _ => 1000; e_lhold := fun _ => 1000; e_pend := fun _ => false; e_hlost := fun _ => false |}.
Definition ex_node : db := init [1; 2] ex_env.
(** addresses with LOCAL_IF THIS_IF, LOCAL_IF OTHER_IF, LINK_STATUS *)
Definition tif v : haddr := {| ha_addr := (2, v); ha_ok1 := true; ha_ok2 := true; ha_local := Some 0; ha_status := None; ha_other := None |}.
Definition oif v : haddr := {| ha_addr := (2, v); ha_ok1 := true; ha_ok2 := true; ha_local := Some 1; ha_status := None; ha_other := None |}.
Definition lst v st : haddr := {| ha_addr := (2, v); ha_ok1 := true; ha_ok2 := true; ha_local := None; ha_status := Some st; ha_other := None |}.
(** an address whose LOCAL_IF TLV has a wrong length *)
Definition wrong v : haddr := {| ha_addr := (2, v); ha_ok1 := false; ha_ok2 := true; ha_local := None; ha_status := None; ha_other := None |}.
Definition hello_at i src l : event :=
  EvHello {| h_if := i; h_ok := true; h_active := true; h_addrlen := 4; h_hasorig := false; h_orig := UNSPEC; h_v4 := UNSPEC;
             h_mac := UNSPEC; h_src := (2, src); h_vtime := 1000; h_addrs := l |}.
(** a HELLO without VTIME *)
Definition no_vtime i src : event :=
  EvHello {| h_if := i; h_ok := false; h_active := true; h_addrlen := 4; h_hasorig := false; h_orig := UNSPEC; h_v4 := UNSPEC;
             h_mac := UNSPEC; h_src := (2, src); h_vtime := 1000; h_addrs := [] |}.
(** a neighbor with a symmetric link to 5 and the two-hop address 7 *)
Definition ex_sym : list event := [hello_at 1 5 [tif 5; lst 101 1; lst 7 1]].

(** ** C67: the counter of symmetric links *)
Theorem C67_symmetric_counter_partial : forall ifs e evs,
  guarded counting_event (init ifs e) evs ->
  exists s, run (init ifs e) evs = Ok s /\ counts_ok s.
Proof.
  intros ifs e evs G. destruct (run_cn evs (init ifs e)) as (s & E & W & O); auto using wf_init.
  - intros i k [].
  - exists s. split; auto. now apply cn_counts.
Qed.
(** a HELLO that tells that two links are one *)
Theorem C67_merged_links_refuted : exists evs s n,
  Forall (fun e => match e with EvHello h => well_formed h | _ => False end) evs /\
  run ex_node evs = Ok s /\ s_n s = [n] /\ n_sym n = 3 /\ sym_links s (n_id n) = 1.
Proof.
  exists [hello_at 1 5 [tif 5; lst 101 1]; hello_at 1 6 [tif 6; oif 5; lst 101 1]; hello_at 1 5 [tif 5; tif 6; lst 101 1]].
  eexists. eexists. split; [|split; [vm_compute; reflexivity|split; [reflexivity|split; reflexivity]]].
  repeat constructor.
Qed.
(** the interface loses its addresses: the symmetric link stays symmetric *)
Theorem C67_interface_down_refuted : exists s s' n,
  run ex_node (ex_sym ++ [EvIfDown 1; hello_at 1 5 [tif 5; lst 101 1]]) = Ok s /\ s_n s = [n] /\ n_sym n = 0 /\ sym_links s (n_id n) = 1 /\
  run ex_node (ex_sym ++ [EvIfDown 1; EvIfDown 1]) = Ok s' /\ map n_sym (s_n s') = [-1].
Proof. eexists. eexists. eexists. split; [vm_compute; reflexivity|]. split; [reflexivity|]. split; [reflexivity|]. split; [reflexivity|]. split; vm_compute; reflexivity. Qed.

(** ** C68: no dangling pointers *)
Theorem C68_no_dangling_pointer_partial : forall ifs e evs,
  guarded safe_event (init ifs e) evs ->
  exists s, run (init ifs e) evs = Ok s.
Proof. intros ifs e evs G. destruct (run_ok evs (init ifs e) (wf_init _ _) G) as (s & E & _). eauto. Qed.
(** a HELLO that tells that two neighbors are one *)
Theorem C68_merged_neighbors_refuted : exists evs,
  Forall (fun e => match e with EvHello h => well_formed h | _ => False end) evs /\
  run ex_node evs = Bad (F_link 2).
Proof.
  exists [hello_at 1 5 [tif 5]; hello_at 2 6 [tif 6]; hello_at 1 5 [tif 5; oif 6]].
  split; [repeat constructor|vm_compute; reflexivity].
Qed.
(** a HELLO without VTIME after the link of the HELLO before has timed out *)
Theorem C68_stale_current_refuted : run ex_node (ex_sym ++ [EvTime 5000; EvVtime 2; no_vtime 1 66]) = Bad (F_link 2).
Proof. vm_compute. reflexivity. Qed.
(** an interface is removed while it has links *)
Theorem C68_removed_interface_refuted : run ex_node (ex_sym ++ [EvIfRemove 1; EvTime 5000; EvVtime 2]) = Bad (F_if 1).
Proof. vm_compute. reflexivity. Qed.

(** ** C71: the database is consistent *)
Theorem C71_consistent_partial : forall ifs e evs,
  guarded safe_event (init ifs e) evs ->
  exists s, run (init ifs e) evs = Ok s /\ consistent s.
Proof.
  intros ifs e evs G. destruct (run_ok evs (init ifs e) (wf_init _ _) G) as (s & E & W). exists s. split; auto. now apply wf_consistent.
Qed.

(** ** C70: a HELLO that is not accepted changes nothing *)
(** holds for HELLOs on interfaces that do not take them *)
Theorem C70_inactive_interface_partial : forall s h,
  h_ok h = true -> (h_active h = false \/ ~ In (h_if h) (s_ifs s)) ->
  exists s', process_hello s h = Ok s' /\
    s_n s' = s_n s /\ s_l s' = s_l s /\ s_na s' = s_na s /\ s_la s' = s_la s /\ s_h s' = s_h s /\ s_setid s' = s_setid s.
Proof.
  intros s h O A. unfold process_hello. rewrite O. cbn [negb].
  assert (h_active h && existsb (Z.eqb (h_if h)) (s_ifs s) = false) as ->.
  { destruct A as [-> | A]; auto. apply andb_false_iff. right. destruct (existsb _ _) eqn:E; auto. apply existsb_exists in E.
    destruct E as (x & E1 & E2). apply Z.eqb_eq in E2. subst. tauto. }
  cbn. eexists. split; [reflexivity|]. cbn. auto 10.
Qed.
(** one malformed HELLO (from anybody) removes the neighbor of the HELLO before *)
Theorem C70_no_vtime_refuted : exists s s',
  run ex_node ex_sym = Ok s /\ zlen (s_n s) = 1 /\ zlen (s_l s) = 1 /\
  step s (no_vtime 2 66) = Ok s' /\ s_n s' = [] /\ s_l s' = [] /\ s_na s' = [].
Proof. eexists. eexists. split; [vm_compute; reflexivity|]. split; [reflexivity|]. split; [reflexivity|]. split; vm_compute; auto. Qed.
(** a HELLO with a malformed address TLV removes the neighbor whose addresses it lists before *)
Theorem C70_malformed_address_refuted : exists s s',
  run ex_node ex_sym = Ok s /\ zlen (s_n s) = 1 /\ zlen (s_l s) = 1 /\
  step s (hello_at 1 66 [tif 5; wrong 9]) = Ok s' /\ s_n s' = [] /\ s_l s' = [] /\ s_na s' = [].
Proof. eexists. eexists. split; [vm_compute; reflexivity|]. split; [reflexivity|]. split; [reflexivity|]. split; vm_compute; auto. Qed.

(** ** C72: two-hop addresses are those of symmetric links *)
(** when the link stops being symmetric they are removed *)
Definition twohop_gone (s : db) (i : Z) : Prop := forall x, In x (s_h s) -> h2_l x <> i.

(** after any event but a HELLO: a link that stopped being symmetric has no two-hop addresses *)
Theorem C72_not_symmetric_anymore_partial : forall ifs e evs s ev s' l l',
  guarded safe_event (init ifs e) evs -> run (init ifs e) evs = Ok s ->
  (forall h, ev <> EvHello h) -> step s ev = Ok s' ->
  In l (s_l s) -> In l' (s_l s') -> l_id l' = l_id l -> l_status l = SYMMETRIC -> l_status l' <> SYMMETRIC ->
  twohop_gone s' (l_id l).
Proof.
  intros ifs e evs s ev s' l l' G R NH S I I' D S1 S2. destruct (run_ok evs (init ifs e) (wf_init _ _) G) as (t & E & W). rewrite R in E. okinj E.
  apply in_CL in I. apply in_CL in I'. rewrite D in I'. rewrite S1 in I. exact (step_fades s ev s' W NH S _ _ _ _ I I' S2).
Qed.
(** a HELLO adds them although the link is not symmetric *)
Theorem C72_heard_link_refuted : exists evs s x l,
  Forall (fun e => match e with EvHello h => well_formed h | _ => False end) evs /\
  run ex_node evs = Ok s /\ In x (s_h s) /\ In l (s_l s) /\ l_id l = h2_l x /\ l_status l = HEARD.
Proof.
  exists [hello_at 1 5 [tif 5; lst 7 1]]. eexists. eexists. eexists. split; [repeat constructor|]. split; [vm_compute; reflexivity|].
  split; [left; reflexivity|]. split; [left; reflexivity|]. split; reflexivity.
Qed.

(** ** Examples *)
Definition ex_history : list event :=
  [hello_at 1 5 [tif 5; lst 101 1; lst 7 1]; EvTime 500; hello_at 2 6 [tif 6; oif 5; lst 102 2]; hello_at 1 8 [tif 8; lst 101 0; lst 5 1];
   EvTime 1200; EvSym 2; EvHeard 2; EvNaddr (2, 5); EvTime 2300; EvVtime 2; EvQuality 3].
Example C67_ex : exists s, run ex_node ex_history = Ok s /\ map (fun n => (n_id n, n_sym n)) (s_n s) = [(1, 1); (4, 0)] /\
  map (fun l => (l_id l, l_n l, l_status l)) (s_l s) = [(3, 1, SYMMETRIC); (5, 4, HEARD)].
Proof. eexists. split; [vm_compute; reflexivity|]. split; reflexivity. Qed.

(** a check of [counting_event] for concrete histories *)
Definition kns (s : db) (h : hello) : list Z :=
  concat (map (fun x => match ha_local x with Some _ => map na_n (filter (is_na (ha_addr x)) (s_na s)) | None => [] end) (h_addrs h)).
Definition kls (s : db) (h : hello) : list Z :=
  concat (map (fun x => match ha_local x with Some v => if Z.even v then map la_l (filter (is_la (h_if h) (ha_addr x)) (s_la s)) else [] | None => [] end) (h_addrs h)).
Definition all_eq (l : list Z) : bool := forallb (fun i => forallb (Z.eqb i) l) l.
Definition countingb (s : db) (e : event) : bool :=
  match e with
  | EvHello h => h_ok h && forallb (fun x => ha_ok1 x && ha_ok2 x) (h_addrs h) && all_eq (kns s h) && all_eq (kls s h)
  | EvIfDown _ | EvIfRemove _ => false
  | _ => true
  end.
Fixpoint guardb (s : db) (l : list event) : bool :=
  match l with
  | [] => true
  | e :: r => countingb s e && match step s e with Ok s' => guardb s' r | Bad _ => false end
  end.
Lemma all_eq_one l (P : Z -> Prop) : (forall i, P i -> In i l) -> all_eq l = true -> one P.
Proof.
  intros H A i j Hi Hj. unfold all_eq in A. rewrite forallb_forall in A. specialize (A i (H _ Hi)). rewrite forallb_forall in A.
  specialize (A j (H _ Hj)). now apply Z.eqb_eq in A.
Qed.
Lemma countingb_ok s e : countingb s e = true -> counting_event s e.
Proof.
  destruct e; cbn; auto; try discriminate. intros B. repeat (apply andb_true_iff in B; destruct B as [B ?B]).
  assert (O1 : one (known_neigh s h)).
  { eapply all_eq_one; [|exact B1]. intros i (x & na & I1 & (v & V) & I2 & E & <-). unfold kns. apply in_concat. eexists. split; [apply in_map; exact I1|].
    cbv beta. rewrite V. apply in_map. apply filter_In. split; auto. unfold is_na. rewrite E. unfold addr_eqb. now rewrite !Z.eqb_refl. }
  assert (O2 : one (known_link s h)).
  { eapply all_eq_one; [|exact B0]. intros i (x & la & I1 & (v & V & Ev) & I2 & F & E & <-). unfold kls. apply in_concat. eexists. split; [apply in_map; exact I1|].
    cbv beta. rewrite V, Ev. apply in_map. apply filter_In. split; auto. unfold is_la. rewrite E, F. unfold addr_eqb. now rewrite !Z.eqb_refl. }
  split; [|split; [left; exact O1|exact O2]]. split; auto. apply Forall_forall. rewrite forallb_forall in B2. intros x Hx. apply B2 in Hx. now apply andb_true_iff in Hx.
Qed.
Lemma guardb_ok l : forall s, guardb s l = true -> guarded counting_event s l.
Proof.
  induction l as [|e l IH]; intros s B; cbn [guardb guarded] in *; auto. apply andb_true_iff in B. destruct B as [B1 B2].
  split; [now apply countingb_ok|]. intros s' E. rewrite E in B2. auto.
Qed.
Lemma guarded_weak (G G' : db -> event -> Prop) l : (forall s e, G s e -> G' s e) -> forall s, guarded G s l -> guarded G' s l.
Proof. intros H. induction l as [|e l IH]; intros s X; cbn [guarded] in *; auto. destruct X. auto. Qed.
Example C67_ex_guard : guarded counting_event ex_node ex_history.
Proof. apply guardb_ok. vm_compute. reflexivity. Qed.
Example C68_ex : guarded safe_event ex_node (ex_history ++ [EvIfDown 1; hello_at 1 66 [tif 8; wrong 9]]) /\
  exists s, run ex_node (ex_history ++ [EvIfDown 1; hello_at 1 66 [tif 8; wrong 9]]) = Ok s /\ map n_id (s_n s) = [1] /\ map l_id (s_l s) = [3].
Proof.
  split.
  - assert (X : forall l s r, guardb s l = true -> (forall s', run s l = Ok s' -> guarded safe_event s' r) -> guarded safe_event s (l ++ r)).
    { induction l as [|e l IH]; intros s r B H; cbn [guardb app guarded run] in *; [auto|]. apply andb_true_iff in B. destruct B as [B1 B2].
      split; [apply counting_safe, countingb_ok; auto|]. intros s' E. rewrite E in B2. apply IH; auto. intros t Ht. apply H. rewrite E. exact Ht. }
    apply X; [vm_compute; reflexivity|]. intros s' E. vm_compute in E. injection E as <-.
    split; [exact I|]. intros s' E. vm_compute in E. injection E as <-. split; [|intros s' _; exact I].
    left. eapply all_eq_one with (l := [4]); [|reflexivity].
    intros i (x & na & I1 & (v & V) & I2 & E & <-). cbn in I1. destruct I1 as [<- | [<- | []]]; [|discriminate].
    cbn in I2. intuition subst; cbn in *; try discriminate; auto.
  - eexists. split; [vm_compute; reflexivity|]. split; reflexivity.
Qed.
Example C71_ex : exists s, run ex_node ex_history = Ok s /\ guarded safe_event ex_node ex_history /\ zlen (s_n s) = 2 /\ zlen (s_l s) = 2 /\ zlen (s_na s) = 3 /\ zlen (s_la s) = 2 /\ zlen (s_h s) = 1.
Proof.
  eexists. split; [vm_compute; reflexivity|]. split; [|repeat split; reflexivity].
  eapply guarded_weak; [|apply C67_ex_guard]. apply counting_safe.
Qed.
Example C70_ex : exists h, h_ok h = true /\ ~ In (h_if h) (s_ifs ex_node) /\ EvHello h = hello_at 3 5 [tif 5; lst 101 1].
Proof. eexists. split; [|split; [|reflexivity]]; [reflexivity|]. cbn. intuition discriminate. Qed.
Example C72_ex : exists s s', run ex_node (ex_sym ++ [EvTime 1100]) = Ok s /\ zlen (s_h s) = 1 /\ map l_status (s_l s) = [SYMMETRIC] /\
  step s (EvSym 2) = Ok s' /\ map l_status (s_l s') = [HEARD] /\ s_h s' = [].
Proof. eexists. eexists. split; [vm_compute; reflexivity|]. split; [reflexivity|]. split; [reflexivity|]. split; [vm_compute; reflexivity|]. split; reflexivity. Qed.

Print Assumptions C67_symmetric_counter_partial.
Print Assumptions C67_merged_links_refuted.
Print Assumptions C67_interface_down_refuted.
Print Assumptions C68_no_dangling_pointer_partial.
Print Assumptions C68_merged_neighbors_refuted.
Print Assumptions C68_stale_current_refuted.
Print Assumptions C68_removed_interface_refuted.
Print Assumptions C70_inactive_interface_partial.
Print Assumptions C70_no_vtime_refuted.
Print Assumptions C70_malformed_address_refuted.
Print Assumptions C71_consistent_partial.
Print Assumptions C72_not_symmetric_anymore_partial.
Print Assumptions C72_heard_link_refuted.
