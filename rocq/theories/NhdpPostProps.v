(** Property C69: what an accepted HELLO does to the NHDP database. *)
From Verif Require Import Base NhdpModel NhdpSpec NhdpProofs NhdpHello NhdpCounts NhdpPost NhdpProps.

(** In full the property is about all well-formed HELLOs; [coherent] leaves out
    those without an address of the sending interface, those that merge
    neighbors or links, and those for a link that is not one of the neighbor
    with the addresses (see the refutations below and C67, C68). *)
Theorem C69_hello_partial : forall ifs e evs s h,
  guarded safe_event (init ifs e) evs -> run (init ifs e) evs = Ok s -> coherent s h ->
  exists s' L N, step s (EvHello h) = Ok s' /\ accepted s h s' L N /\
    (no_loop s h L -> timely s h -> exists l', In l' (s_l s') /\ l_id l' = L /\ settled s h s' l' N).
Proof.
  intros ifs e evs s h G R C. destruct (run_ok evs (init ifs e) (wf_init _ _) G) as (t & E & W). rewrite R in E. okinj E.
  destruct (hello_post s h W C) as (s' & L & N & H1 & _ & H2 & H3). exists s', L, N. auto.
Qed.
(** in particular: the sender that tells it hears us becomes a symmetric neighbor *)
Theorem C69_heard_symmetric_partial : forall ifs e evs s h s',
  guarded safe_event (init ifs e) evs -> run (init ifs e) evs = Ok s -> coherent s h -> (forall L, no_loop s h L) -> timely s h ->
  hears_us s h -> step s (EvHello h) = Ok s' ->
  exists l, In l (s_l s') /\ l_if l = h_if h /\ l_status l = SYMMETRIC /\ l_sym l = Some (s_now s + h_vtime h) /\
    (forall x, In x (h_addrs h) -> this_if x -> exists la, In la (s_la s') /\ la_l la = l_id l /\ la_addr la = ha_addr x) /\
    (forall x, In x (h_addrs h) -> local x -> exists na, In na (s_na s') /\ na_n na = l_n l /\ na_addr na = ha_addr x /\ na_lost na = None).
Proof.
  intros ifs e evs s h s' G R C NL T HU S. destruct (C69_hello_partial ifs e evs s h G R C) as (t & L & N & E & A & F). rewrite S in E. okinj E.
  destruct (F (NL L) T) as (l & I & D & ST). exists l. destruct A as [A1 A2 (l0 & J1 & J2 & J3 & J4 & J5) A4 A5 _ _ _ _ _ _].
  destruct (run_ok evs (init ifs e) (wf_init _ _) G) as (t & E & W). rewrite R in E. okinj E. destruct (hello_post s h W C) as (t & L' & N' & H1 & W' & _).
  assert (t = s') by (cbn [step] in S; congruence). subst t.
  assert (l0 = l) by (apply (in_map_inj l_id (s_l s')); auto; [apply W'|congruence]). subst l0.
  destruct ST as [(B1 & _) B2 B3 B4 _ _]. specialize (B1 HU). rewrite B1 in B3.
  split; auto. split; auto. split; auto. split; auto. split.
  - intros x Hx Tx. destruct (proj2 (A4 (ha_addr x))) as (la & K1 & K2 & K3); [eauto|]. exists la. split; auto. split; congruence.
  - intros x Hx Tx. destruct (proj2 (A5 (ha_addr x))) as (na & K1 & K2 & K3); [eauto|]. exists na. split; auto. split; [congruence|]. split; auto.
    apply (B4 (or_introl B3) na x); auto.
Qed.

(** addresses that are not listed any more are not lost, when the HELLO makes the link symmetric *)
Definition hello_of (e : event) : hello := match e with EvHello h => h | _ => {| h_if := 0; h_ok := false; h_active := false; h_addrlen := 0; h_hasorig := false; h_orig := UNSPEC;
  h_v4 := UNSPEC; h_mac := UNSPEC; h_src := UNSPEC; h_vtime := 0; h_addrs := [] |} end.
Definition coherentb (s : db) (h : hello) : bool :=
  countingb s (EvHello h) && h_active h && existsb (Z.eqb (h_if h)) (s_ifs s) &&
  forallb (fun x => (length (filter (fun y => addr_eqb (ha_addr y) (ha_addr x)) (h_addrs h)) =? 1)%nat) (h_addrs h) &&
  existsb (fun x => match ha_local x with Some v => Z.even v | None => false end) (h_addrs h) &&
  forallb (fun l => negb (existsb (Z.eqb (l_id l)) (kls s h)) || existsb (Z.eqb (l_n l)) (kns s h)) (s_l s).
Lemma once_nodup (l : list haddr) : forallb (fun x => (length (filter (fun y => addr_eqb (ha_addr y) (ha_addr x)) l) =? 1)%nat) l = true -> NoDup (map ha_addr l).
Proof.
  intros B. rewrite forallb_forall in B. assert (X : forall x, In x l -> (length (filter (fun y => addr_eqb (ha_addr y) (ha_addr x)) l) <= 1)%nat).
  { intros x H. apply B in H. apply Nat.eqb_eq in H. lia. }
  clear B. induction l as [|a l IH]; cbn [map]; constructor.
  - intros C. apply in_map_iff in C. destruct C as (b & E & C). specialize (X a (or_introl eq_refl)). cbn [filter] in X. rewrite addr_eqb_refl in X. cbn [length] in X.
    assert (In b (filter (fun y => addr_eqb (ha_addr y) (ha_addr a)) l)) by (apply filter_In; split; auto; rewrite E; apply addr_eqb_refl).
    destruct (filter _ l); [contradiction|cbn in X; lia].
  - apply IH. intros x H. specialize (X x (or_intror H)). cbn [filter] in X. destruct (addr_eqb _ _); cbn [length] in X; lia.
Qed.
Lemma coherentb_ok s h : coherentb s h = true -> coherent s h.
Proof.
  unfold coherentb. intros B. do 5 (apply andb_true_iff in B; destruct B as [B ?B]). pose proof (countingb_ok _ _ B) as (C1 & _ & C3).
  constructor; auto.
  - apply existsb_exists in B3. destruct B3 as (i & I & E). apply Z.eqb_eq in E. congruence.
  - now apply once_nodup.
  - apply existsb_exists in B1. destruct B1 as (x & I & E). exists x. split; auto. unfold this_if. destruct (ha_local x); [eauto|discriminate].
  - cbn in B. repeat (apply andb_true_iff in B; destruct B as [B ?B]). eapply all_eq_one; [|exact B6].
    intros i (x & na & I1 & (v & V) & I2 & E & <-). unfold kns. apply in_concat. eexists. split; [apply in_map; exact I1|].
    cbv beta. rewrite V. apply in_map. apply filter_In. split; auto. unfold is_na. rewrite E. apply addr_eqb_refl.
  - intros l Hl (x & la & I1 & (v & V & Ev) & I2 & F & E & K). rewrite forallb_forall in B0. specialize (B0 l Hl). apply orb_true_iff in B0.
    assert (In (l_id l) (kls s h)).
    { unfold kls. apply in_concat. eexists. split; [apply in_map; exact I1|]. cbv beta. rewrite V, Ev. rewrite <- K. apply in_map. apply filter_In. split; auto.
      unfold is_la. rewrite E, F, Z.eqb_refl. apply addr_eqb_refl. }
    destruct B0 as [B0 | B0].
    + apply negb_true_iff in B0. assert (existsb (Z.eqb (l_id l)) (kls s h) = true); [|congruence]. apply existsb_exists. exists (l_id l). split; auto. apply Z.eqb_refl.
    + apply existsb_exists in B0. destruct B0 as (n & N1 & N2). apply Z.eqb_eq in N2. subst n. unfold kns in N1. apply in_concat in N1. destruct N1 as (q & Q1 & Q2).
      apply in_map_iff in Q1. destruct Q1 as (y & Y1 & Y2). subst q. destruct (ha_local y) as [w|] eqn:LY; [|contradiction]. apply in_map_iff in Q2. destruct Q2 as (na & A1 & A2).
      apply filter_In in A2. destruct A2 as [A2 A3]. apply addr_eqb_eq in A3. exists y, na. split; auto. split; [unfold local; eauto|]. auto.
Qed.
Theorem C69_unlisted_refuted : exists evs h s s' na,
  guarded safe_event ex_node evs /\ run ex_node evs = Ok s /\ coherent s h /\ hears_us s h /\ step s (EvHello h) = Ok s' /\
  In na (s_na s') /\ known_neigh s h (na_n na) /\ binlength (na_addr na) = h_addrlen h /\
  (forall x, In x (h_addrs h) -> ha_addr x <> na_addr na) /\ na_lost na = None.
Proof.
  exists [hello_at 1 5 [tif 5; oif 6]], (hello_of (hello_at 1 5 [tif 5; lst 101 1])). eexists. eexists. exists {| na_addr := (2, 6); na_n := 1; na_lost := None; na_mbr := true |}.
  split; [apply (guarded_weak counting_event); [apply counting_safe|apply guardb_ok; vm_compute; reflexivity]|].
  split; [vm_compute; reflexivity|]. split; [apply coherentb_ok; vm_compute; reflexivity|].
  split; [exists (lst 101 1), 1; split; [right; left; reflexivity|split; [reflexivity|split; [reflexivity|vm_compute; discriminate]]]|].
  split; [vm_compute; reflexivity|]. split; [vm_compute; auto|].
  split; [exists (tif 5), {| na_addr := (2, 5); na_n := 1; na_lost := None; na_mbr := false |}; split; [left; reflexivity|split; [exists 0; reflexivity|split; [vm_compute; auto|split; reflexivity]]]|].
  split; [reflexivity|]. split; [|reflexivity]. intros x [<- | [<- | []]]; vm_compute; discriminate.
Qed.
(** a neighbor whose HELLOs do not list its address (the reader then takes the source address) is a new neighbor every time *)
Theorem C69_source_address_refuted : exists h s s',
  well_formed h /\ h_active h = true /\ In (h_if h) (s_ifs ex_node) /\
  run ex_node [EvHello h] = Ok s /\ run ex_node [EvHello h; EvHello h; EvHello h] = Ok s' /\
  map na_addr (s_na s) = [h_src h] /\ zlen (s_n s) = 1 /\ zlen (s_l s) = 1 /\
  map na_addr (s_na s') = [h_src h] /\ zlen (s_n s') = 3 /\ zlen (s_l s') = 3.
Proof.
  exists (hello_of (hello_at 1 5 [lst 101 1])). eexists. eexists. split; [repeat constructor|]. split; [reflexivity|]. split; [cbn; auto|].
  split; [vm_compute; reflexivity|]. split; [vm_compute; reflexivity|]. repeat split; reflexivity.
Qed.
(** after the address of a neighbor was lost and came back, link and address belong to different neighbors *)
Theorem C69_split_neighbor_refuted : exists evs h s s' l la na,
  guarded safe_event ex_node evs /\ run ex_node evs = Ok s /\ well_formed h /\ (exists x, In x (h_addrs h) /\ this_if x) /\ one (known_neigh s h) /\ one (known_link s h) /\
  step s (EvHello h) = Ok s' /\ In l (s_l s') /\ In la (s_la s') /\ In na (s_na s') /\ la_l la = l_id l /\ l_status l = SYMMETRIC /\ na_addr na = la_addr la /\ na_n na <> l_n l.
Proof.
  exists [hello_at 1 5 [tif 5; lst 101 1]; EvTime 500; hello_at 1 5 [tif 5; lst 101 0]; EvTime 1500; EvNaddr (2, 5); EvSym 2; EvHeard 2; EvVtime 2; EvTime 1600],
         (hello_of (hello_at 1 5 [tif 5; lst 101 1])).
  eexists. eexists. eexists. eexists. eexists.
  split; [apply (guarded_weak counting_event); [apply counting_safe|apply guardb_ok; vm_compute; reflexivity]|].
  split; [vm_compute; reflexivity|]. split; [repeat constructor|]. split; [exists (tif 5); split; [left; reflexivity|exists 0; split; reflexivity]|].
  match goal with |- one (known_neigh ?x ?y) /\ _ => pose proof (countingb_ok x (EvHello y) ltac:(vm_compute; reflexivity)) as (_ & _ & X2) end.
  split; [intros i j (x & na & _ & _ & [] & _)|]. split; [exact X2|].
  split; [vm_compute; reflexivity|]. split; [left; reflexivity|]. split; [left; reflexivity|]. split; [left; reflexivity|]. split; [reflexivity|]. split; [reflexivity|]. split; [reflexivity|]. vm_compute. discriminate.
Qed.

(** ** Example: a second HELLO of a known neighbor with a heard link *)
Example C69_ex : exists s h,
  guarded safe_event ex_node [hello_at 1 5 [tif 5; oif 6; lst 9 1]; EvTime 300] /\ run ex_node [hello_at 1 5 [tif 5; oif 6; lst 9 1]; EvTime 300] = Ok s /\
  EvHello h = hello_at 1 5 [tif 5; tif 8; lst 101 2; lst 7 1; lst 9 0] /\ coherent s h /\ (forall L, no_loop s h L) /\ timely s h /\ hears_us s h /\
  exists s', step s (EvHello h) = Ok s' /\ map l_status (s_l s') = [SYMMETRIC] /\ map na_addr (s_na s') = [(2, 5); (2, 6); (2, 8)] /\ map h2_addr (s_h s') = [(2, 7)].
Proof.
  eexists. exists (hello_of (hello_at 1 5 [tif 5; tif 8; lst 101 2; lst 7 1; lst 9 0])).
  split; [apply (guarded_weak counting_event); [apply counting_safe|apply guardb_ok; vm_compute; reflexivity]|].
  split; [vm_compute; reflexivity|]. split; [reflexivity|]. split; [apply coherentb_ok; vm_compute; reflexivity|].
  split; [intros L; constructor; [reflexivity|left; reflexivity|split; [vm_compute; discriminate|intros l [<- | []]; vm_compute; discriminate]|split; reflexivity]|].
  split; [split; [cbn; lia|split; [cbn; lia|split; [cbn; lia|intros l d [<- | []] H; cbn in H; discriminate]]]|].
  split; [exists (lst 101 2), 2; split; [right; right; left; reflexivity|split; [reflexivity|split; [reflexivity|vm_compute; discriminate]]]|].
  eexists. split; [vm_compute; reflexivity|]. split; [reflexivity|]. split; reflexivity.
Qed.

Print Assumptions C69_hello_partial.
Print Assumptions C69_heard_symmetric_partial.
Print Assumptions C69_unlisted_refuted.
Print Assumptions C69_source_address_refuted.
Print Assumptions C69_split_neighbor_refuted.
