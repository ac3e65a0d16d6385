(** Properties of the addresses in HELLOs: C148 (own addresses), C149 (addresses of neighbors),
    C150 (two routers become symmetric neighbors). *)
From Verif Require Import Base BufLemmas NhdpModel NhdpSpec NhdpProofs NhdpHello NhdpCounts NhdpPost NhdpProps NhdpPostProps HwModel HwSpec HwProofs.

(** the database after a history that meets no dangling pointer (C68) *)
Definition reached (ifs : list Z) (e : env) (evs : list event) (s : db) : Prop :=
  guarded safe_event (init ifs e) evs /\ run (init ifs e) evs = Ok s.
Lemma reached_wf ifs e evs s : reached ifs e evs s -> wf s.
Proof. intros (G & R). destruct (run_ok evs (init ifs e) (wf_init _ _) G) as (t & E & W). rewrite R in E. okinj E. auto. Qed.

(** ** C148: own addresses *)
(** In full: an address is announced as one of the sending interface exactly if it is one.  Missing: addresses
    that the interface had before, and that another interface has now (refuted below). *)
Theorem C148_own_addresses_partial : forall ops ifs e evs s i f, reached ifs e evs s ->
  exists l, hello_addrs (ifrun ops) s i f = Ok l /\ NoDup (map ha_addr l) /\ Forall (fun x => a_af (ha_addr x) = f) l /\
  forall a, a_af a = f ->
    ((exists x, In x l /\ ha_addr x = a /\ local x) <-> exists j, now ops j a) /\
    (now ops i a -> exists x, In x l /\ ha_addr x = a /\ this_if x) /\
    (~ held ops i a -> forall x, In x l -> ha_addr x = a -> this_if x -> now ops i a).
Proof.
  intros ops ifs e evs s i f R. apply reached_wf in R. pose proof (wf_consistent _ R) as C.
  destruct (hello_total (ifrun ops) s i f C) as (l & E). exists l. split; auto.
  destruct (hello_lk _ _ _ _ _ (proj1 (co_naddr s C)) E) as (N & K). split; auto. split.
  { apply Forall_forall. intros x H. assert (Q : lk l (ha_addr x) = Some x) by (apply lk_in; auto). rewrite K in Q.
    destruct (Z.eqb_spec (a_af (ha_addr x)) f); [auto|discriminate]. }
  intros a F. assert (OW : owns (ifrun ops) a = true <-> exists j, now ops j a).
  { rewrite owns_ok. split; intros (j & H); exists j; now apply ifrun_spec. }
  assert (B : forall x, In x l /\ ha_addr x = a -> ha_local x = if owns (ifrun ops) a then Some (loc (ifrun ops) i a) else None).
  { intros x H. apply (lk_in _ _ _ N) in H. rewrite K, F, Z.eqb_refl in H. cbv zeta in H. destruct (naddr_get s a) as [na|].
    - destruct (link_tlvs s i na) as [t|]; [|discriminate]. injection H as <-. destruct (owns (ifrun ops) a); reflexivity.
    - destruct (owns (ifrun ops) a); [|discriminate]. injection H as <-. reflexivity. }
  assert (X : owns (ifrun ops) a = true -> exists x, In x l /\ ha_addr x = a /\ ha_local x = Some (loc (ifrun ops) i a)).
  { intros O. destruct (lk l a) as [x|] eqn:Q.
    - pose proof Q as Q'. apply lk_in in Q; auto. exists x. split; [tauto|]. split; [tauto|]. rewrite (B x Q), O. auto.
    - exfalso. rewrite K, F, Z.eqb_refl, O in Q. cbv zeta in Q. destruct (naddr_get s a) as [na|] eqn:G; [|discriminate].
      apply naddr_get_in in G; auto. destruct (tlvs_ok s i na C (proj1 G)) as (n & st & ot & _ & _ & T & _). rewrite T in Q. discriminate. }
  split; [|split].
  - rewrite <- OW. split.
    + intros (x & H1 & H2 & v & H3). rewrite (B x (conj H1 H2)) in H3. destruct (owns (ifrun ops) a); [auto|discriminate].
    + intros O. destruct (X O) as (x & H1 & H2 & H3). exists x. split; auto. split; auto. eexists. eauto.
  - intros M. destruct X as (x & H1 & H2 & H3); [apply OW; eauto|]. exists x. split; auto. split; auto. eexists. split; [eauto|].
    unfold loc. replace (existsb (is_ia i a) (ifrun ops)) with true; [reflexivity|]. symmetry. apply existsb_isin.
    apply ifrun_spec in M. destruct M as (y & M1 & M2 & M3 & _). exists y. auto.
  - intros NH x H1 H2 (v & H3 & H4). rewrite (B x (conj H1 H2)) in H3. destruct (owns (ifrun ops) a); [|discriminate]. injection H3 as <-.
    unfold loc in H4. destruct (existsb (is_ia i a) (ifrun ops)) eqn:Q; [|discriminate]. apply existsb_isin in Q. apply ifrun_spec in Q.
    destruct (ifrun_spec ops i a) as [LV _]. destruct (existsb (fun y => is_ia i a y && negb (ia_removed y)) (ifrun ops)) eqn:D.
    + apply LV. apply existsb_exists in D. destruct D as (y & D1 & D2). apply andb_true_iff in D2. destruct D2 as [D2 D3]. apply is_ia_ok in D2.
      apply negb_true_iff in D3. exists y. tauto.
    + exfalso. apply NH. split; auto. intros M. apply LV in M. destruct M as (y & M1 & M2 & M3 & M4). rewrite <- not_true_iff_false in D. apply D.
      apply existsb_exists. exists y. split; auto. rewrite M4, andb_true_r. now apply is_ia_ok.
Qed.
(** two interfaces, one with an old address *)
Example C148_ex : let ops := [IfEvent 1 [(2, 11); (10, 5)]; IfEvent 2 [(2, 20)]; IfEvent 1 [(2, 12)]] in
  now ops 1 (2, 12) /\ now ops 2 (2, 20) /\ held ops 1 (2, 11) /\
  hello_addrs (ifrun ops) ex_node 1 2 = Ok [oif 20; tif 12].
Proof. cbn. unfold held, now. cbn. repeat split; auto; try tauto. intros [H|[]]. discriminate. Qed.

(** An address that moves from interface 1 to interface 2 is announced on both as an address of the sending interface until the
    hold time is over: the neighbors on the first link keep it as an address of this link. *)
Theorem C148_moved_address_refuted : exists ops a, now ops 2 a /\ ~ now ops 1 a /\
  forall i, i = 1 \/ i = 2 -> exists x, hello_addrs (ifrun ops) ex_node i 2 = Ok [x] /\ ha_addr x = a /\ this_if x.
Proof.
  exists [IfEvent 1 [(2, 11)]; IfEvent 1 []; IfEvent 2 [(2, 11)]], (2, 11). unfold now. cbn. split; auto. split; [tauto|].
  intros i [-> | ->]; eexists; (split; [reflexivity|]); (split; [reflexivity|]); exists 0; auto.
Qed.

(** ** C149: addresses of neighbors *)
(** In full also: the status of every link is announced.  Missing: the addresses that are lost although
    their link is heard (refuted below). *)
Theorem C149_neighbor_addresses_partial : forall ops ifs e evs s i f, reached ifs e evs s ->
  exists l, hello_addrs (ifrun ops) s i f = Ok l /\
  (* all addresses of neighbors, and no others but own ones *)
  (forall na, In na (s_na s) -> a_af (na_addr na) = f -> exists x, In x l /\ ha_addr x = na_addr na) /\
  (forall x, In x l -> local x \/ exists na, In na (s_na s) /\ na_addr na = ha_addr x) /\
  (forall x, In x l -> (forall na, In na (s_na s) -> na_addr na <> ha_addr x) -> ha_status x = None /\ ha_other x = None) /\
  forall na x, In na (s_na s) -> In x l -> ha_addr x = na_addr na ->
    (na_lost na <> None -> tells_nothing x) /\
    (na_lost na = None ->
       (forall v, ha_status x = Some v <-> exists k, link_at s i (na_addr na) k /\ l_status k = v /\ v <> PENDING) /\
       (tells_sym x <-> (exists k, link_at s i (na_addr na) k /\ l_status k = SYMMETRIC) \/ exists n, In n (s_n s) /\ n_id n = na_n na /\ 0 < n_sym n) /\
       (ha_other x = Some 1 -> ha_status x <> Some SYMMETRIC)).
Proof.
  intros ops ifs e evs s i f R. apply reached_wf in R. pose proof (wf_consistent _ R) as C.
  destruct (hello_total (ifrun ops) s i f C) as (l & E). exists l. split; auto.
  destruct (hello_lk _ _ _ _ _ (proj1 (co_naddr s C)) E) as (N & K).
  assert (B : forall x, In x l -> a_af (ha_addr x) = f).
  { intros x H. assert (Q : lk l (ha_addr x) = Some x) by (apply lk_in; auto). rewrite K in Q. destruct (Z.eqb_spec (a_af (ha_addr x)) f); [auto|discriminate]. }
  split; [|split; [|split]].
  - intros na H F. pose proof (proj2 (naddr_get_in s (na_addr na) na C) (conj H eq_refl)) as G.
    destruct (tlvs_ok s i na C H) as (n & st & ot & _ & _ & T & _). destruct (lk l (na_addr na)) as [x|] eqn:Q.
    + apply lk_in in Q; auto. exists x. auto.
    + exfalso. rewrite K, F, Z.eqb_refl, G, T in Q. discriminate.
  - intros x H. assert (Q : lk l (ha_addr x) = Some x) by (apply lk_in; auto). rewrite K, (B x H), Z.eqb_refl in Q. cbv zeta in Q.
    destruct (naddr_get s (ha_addr x)) as [na|] eqn:G; [right; apply naddr_get_in in G; eauto|].
    left. destruct (owns (ifrun ops) (ha_addr x)); [|discriminate]. injection Q as Q. unfold local. rewrite <- Q. cbn. eauto.
  - intros x H NN. assert (Q : lk l (ha_addr x) = Some x) by (apply lk_in; auto). rewrite K, (B x H), Z.eqb_refl in Q. cbv zeta in Q.
    destruct (naddr_get s (ha_addr x)) as [na|] eqn:G; [exfalso; apply naddr_get_in in G; auto; destruct G; eapply NN; eauto|].
    destruct (owns (ifrun ops) (ha_addr x)); [|discriminate]. injection Q as Q. rewrite <- Q. auto.
  - intros na x H Hx Ex. assert (Q : lk l (ha_addr x) = Some x) by (apply lk_in; auto). rewrite K, (B x Hx), Z.eqb_refl in Q. cbv zeta in Q.
    rewrite Ex in Q. rewrite (proj2 (naddr_get_in s (na_addr na) na C) (conj H eq_refl)) in Q.
    destruct (tlvs_ok s i na C H) as (n & st & ot & Hn & En & T & TS & TO). rewrite T in Q. injection Q as Q.
    assert (XS : ha_status x = st) by (rewrite <- Q; reflexivity). assert (XO : ha_other x = Some ot) by (rewrite <- Q; reflexivity). clear Q.
    split.
    + intros L. unfold tells_nothing. destruct (na_lost na); [|congruence]. cbn in TO. split; [|congruence]. rewrite XS. destruct st as [v|]; auto.
      destruct (proj1 (TS v) eq_refl). congruence.
    + intros L. rewrite L in *. cbn [active negb andb] in TO. split; [|split].
      * intros v. rewrite XS, TS. split; [intros (_ & Q)|intros Q]; auto.
      * unfold tells_sym. rewrite XS, XO. split.
        -- intros [D|D].
           ++ apply TS in D. destruct D as (_ & k & D1 & D2 & _). left. eauto.
           ++ right. exists n. split; auto. split; auto. destruct (n_sym n >? 0) eqn:P; [lia|]. cbn in TO. congruence.
        -- intros [(k & D1 & D2)|(n' & D1 & D2 & D3)].
           ++ left. apply TS. split; auto. exists k. split; auto. split; auto. discriminate.
           ++ assert (n' = n). { pose proof (get_n_in s _ n C Hn En) as R1. pose proof (get_n_in s _ n' C D1 D2) as R2. congruence. } subst n'.
              replace (n_sym n >? 0) with true in TO by lia. cbn [andb] in TO. destruct st as [v|]; [|right; cbn in TO; congruence].
              destruct (Z.eqb_spec v SYMMETRIC); [left; congruence|right; cbn in TO; congruence].
      * rewrite XS, XO. intros D S0. injection D as D. rewrite S0 in TO. cbn in TO. rewrite andb_false_r in TO. congruence.
Qed.
(** a neighbor on interface 1 with a symmetric link and a second address; a heard one *)
Definition ex_two : list event := [hello_at 1 5 [tif 5; oif 6; lst 101 1]; hello_at 1 8 [tif 8]].
Example C149_ex : guarded safe_event ex_node ex_two /\ exists s, run ex_node ex_two = Ok s /\ hello_addrs (ifrun [IfEvent 1 [(2, 101)]]) s 1 2 =
  Ok [tif 101; {| ha_addr := (2, 5); ha_ok1 := true; ha_ok2 := true; ha_local := None; ha_status := Some SYMMETRIC; ha_other := Some 0 |};
      {| ha_addr := (2, 6); ha_ok1 := true; ha_ok2 := true; ha_local := None; ha_status := None; ha_other := Some 1 |};
      {| ha_addr := (2, 8); ha_ok1 := true; ha_ok2 := true; ha_local := None; ha_status := Some HEARD; ha_other := Some 0 |}].
Proof.
  split; [apply (guarded_weak counting_event); [apply counting_safe|apply guardb_ok; vm_compute; reflexivity]|].
  eexists. split; vm_compute; reflexivity.
Qed.

(** In histories that keep the counter right (C67): an address is announced as one of a symmetric neighbor
    exactly if it is not lost and the neighbor, or the link with the address, is symmetric. *)
Theorem C149_symmetric_partial : forall ops ifs e evs i f, guarded counting_event (init ifs e) evs ->
  exists s l, run (init ifs e) evs = Ok s /\ hello_addrs (ifrun ops) s i f = Ok l /\
  forall na x, In na (s_na s) -> In x l -> ha_addr x = na_addr na ->
    (tells_sym x <-> na_lost na = None /\ exists k, In k (s_l s) /\ l_status k = SYMMETRIC /\ (l_n k = na_n na \/ link_at s i (na_addr na) k)).
Proof.
  intros ops ifs e evs i f G. destruct (C67_symmetric_counter_partial ifs e evs G) as (s & R & CO). exists s.
  assert (G' : guarded safe_event (init ifs e) evs) by (apply (guarded_weak counting_event); [apply counting_safe|auto]).
  destruct (C149_neighbor_addresses_partial ops ifs e evs s i f (conj G' R)) as (l & E & _ & _ & _ & H). exists l. split; auto. split; auto.
  intros na x H1 H2 H3. destruct (H na x H1 H2 H3) as (A & B). clear H. pose proof (reached_wf ifs e evs s (conj G' R)) as W. pose proof (wf_consistent _ W) as C. split.
  - intros T. destruct (na_lost na) as [d|] eqn:L.
    + exfalso. destruct A as (A1 & A2); [discriminate|]. destruct T as [T|T]; congruence.
    + split; auto. destruct (B eq_refl) as (_ & B2 & _). apply B2 in T. destruct T as [(k & K1 & K2)|(n & N1 & N2 & N3)].
      * exists k. split; [apply K1|]. auto.
      * rewrite (CO n N1), N2 in N3. unfold sym_links in N3. destruct (filter (fun k => (l_n k =? na_n na) && (l_status k =? SYMMETRIC)) (s_l s)) as [|k r] eqn:F; [vm_compute in N3; discriminate|].
        assert (K : In k (filter (fun k => (l_n k =? na_n na) && (l_status k =? SYMMETRIC)) (s_l s))) by (rewrite F; now left).
        apply filter_In in K. destruct K as [K1 K2]. apply andb_true_iff in K2. destruct K2 as [K2 K3]. apply Z.eqb_eq in K2, K3. exists k. auto.
  - intros (L & k & K1 & K2 & K3). destruct (B L) as (_ & B2 & _). apply B2. destruct K3 as [K3|K3]; [|left; eauto]. right.
    destruct (co_naddr s C) as [_ CN]. pose proof (CN na H1) as Hn. apply in_map_iff in Hn. destruct Hn as (n & En & Hn). exists n. split; auto. split; auto.
    rewrite (CO n Hn), En. unfold sym_links. assert (Q : In k (filter (fun k => (l_n k =? na_n na) && (l_status k =? SYMMETRIC)) (s_l s))).
    { apply filter_In. split; auto. rewrite K2, K3, !Z.eqb_refl. auto. }
    destruct (filter _ (s_l s)); [contradiction|]. rewrite zlen_cons. unfold zlen. lia.
Qed.
Example C149_symmetric_ex : guarded counting_event ex_node ex_two.
Proof. apply guardb_ok. vm_compute. reflexivity. Qed.

(** A symmetric neighbor that has lost us tells so; its link is then heard, but its addresses are lost: until
    its next HELLO ours do not tell that we hear it (RFC 6130, 11.1 has LINK_STATUS HEARD for all addresses of the link). *)
Theorem C149_heard_link_refuted : exists evs s na k l x,
  guarded safe_event ex_node evs /\ run ex_node evs = Ok s /\ hello_addrs (ifrun [IfEvent 1 [(2, 101)]]) s 1 2 = Ok l /\
  In na (s_na s) /\ link_at s 1 (na_addr na) k /\ l_status k = HEARD /\ In x l /\ ha_addr x = na_addr na /\ tells_nothing x.
Proof.
  exists [hello_at 1 5 [tif 5; lst 101 1]; hello_at 1 5 [tif 5; lst 101 0]]. eexists. eexists. eexists. eexists. eexists.
  split; [apply (guarded_weak counting_event); [apply counting_safe|apply guardb_ok; vm_compute; reflexivity]|].
  split; [vm_compute; reflexivity|]. split; [vm_compute; reflexivity|]. split; [left; reflexivity|].
  split; [split; [left; reflexivity|eexists; split; [left; reflexivity|repeat split; reflexivity]]|].
  split; [reflexivity|]. split; [right; left; reflexivity|]. split; [reflexivity|split; reflexivity].
Qed.

(** ** C150: routers that hear each other *)
(** the HELLO [h] carries what a router with database [s] sends on its interface [i] in family [f] *)
Record sent (ops : list ifop) (s : db) (i f : Z) (h : hello) : Prop := {
  sn_addrs : hello_addrs (ifrun ops) s i f = Ok (h_addrs h); sn_ok : h_ok h = true; sn_active : h_active h = true
}.
Lemma hello_status ops s i f l na : consistent s -> hello_addrs (ifrun ops) s i f = Ok l -> In na (s_na s) -> a_af (na_addr na) = f -> na_lost na = None ->
  forall k, link_at s i (na_addr na) k -> l_status k <> PENDING -> exists y, In y l /\ ha_addr y = na_addr na /\ ha_status y = Some (l_status k).
Proof.
  intros C E H F L k K P. destruct (hello_lk _ _ _ _ _ (proj1 (co_naddr s C)) E) as (N & LK0).
  destruct (tlvs_ok s i na C H) as (n & st & ot & _ & _ & T & TS & _). pose proof (LK0 (na_addr na)) as Q.
  rewrite F, Z.eqb_refl, (proj2 (naddr_get_in s (na_addr na) na C) (conj H eq_refl)), T in Q. cbv zeta in Q. apply lk_in in Q; auto.
  eexists. split; [apply Q|]. split; [apply Q|]. cbn. apply TS. split; auto. exists k. auto.
Qed.
Lemma hello_wellformed ops s i f h a : consistent s -> sent ops s i f h -> now ops i a -> a_af a = f ->
  well_formed h /\ NoDup (map ha_addr (h_addrs h)) /\ exists x, In x (h_addrs h) /\ ha_addr x = a /\ this_if x.
Proof.
  intros C [E OK _] M F. destruct (hello_lk _ _ _ _ _ (proj1 (co_naddr s C)) E) as (N & K). split; [|split; auto].
  - split; auto. apply Forall_forall. intros x H. assert (Q : lk (h_addrs h) (ha_addr x) = Some x) by (apply lk_in; auto). rewrite K in Q.
    destruct (a_af (ha_addr x) =? f); [|discriminate]. cbv zeta in Q. destruct (naddr_get s (ha_addr x)).
    + destruct (link_tlvs s i n); [|discriminate]. injection Q as Q. rewrite <- Q. destruct (owns _ _); auto.
    + destruct (owns _ _); [|discriminate]. injection Q as Q. rewrite <- Q. auto.
  - assert (O : owns (ifrun ops) a = true) by (apply owns_ok; exists i; now apply ifrun_spec).
    assert (I : existsb (is_ia i a) (ifrun ops) = true) by (apply existsb_isin; apply ifrun_spec in M; destruct M as (y & M1 & M2 & M3 & _); exists y; auto).
    pose proof (K a) as Q. rewrite F, Z.eqb_refl, O in Q. cbv zeta in Q. unfold loc in Q. rewrite I in Q.
    destruct (naddr_get s a) as [na|] eqn:G.
    + apply naddr_get_in in G; auto. destruct (tlvs_ok s i na C (proj1 G)) as (n & st & ot & _ & _ & T & _). rewrite T in Q. apply lk_in in Q; auto.
      eexists. split; [apply Q|]. split; [apply Q|]. exists THIS_IF. auto.
    + apply lk_in in Q; auto. eexists. split; [apply Q|]. split; [apply Q|]. exists THIS_IF. auto.
Qed.
Lemma reply s h : wf s -> coherent s h -> (forall L, no_loop s h L) -> timely s h ->
  exists s' k, step s (EvHello h) = Ok s' /\ wf s' /\ accepted s h s' (l_id k) (l_n k) /\ In k (s_l s') /\ (l_status k = HEARD \/ l_status k = SYMMETRIC) /\
    (hears_us s h -> l_status k = SYMMETRIC) /\
    (forall x, In x (h_addrs h) -> this_if x -> link_at s' (h_if h) (ha_addr x) k) /\
    (l_status k = SYMMETRIC \/ ~ was_sym s (l_id k) -> forall x, In x (h_addrs h) -> local x ->
       exists na, In na (s_na s') /\ na_addr na = ha_addr x /\ na_n na = l_n k /\ na_lost na = None).
Proof.
  intros W CH NL T. destruct (hello_post s h W CH) as (s' & L & N & E & W' & A & F). destruct (F (NL L) T) as (k & Hk & Dk & SE). clear F.
  pose proof (wf_consistent _ W') as C. exists s', k. pose proof A as [_ _ (l & J1 & J2 & J3 & J4 & _) A4 A5 _ _ _ _ _ _].
  assert (l = k) by (pose proof (get_l_in s' _ l C J1 J2) as R1; pose proof (get_l_in s' _ k C Hk Dk) as R2; congruence). subst l.
  destruct SE as [S1 _ S3 S4 _ _]. split; auto. split; auto. split; [congruence|]. split; auto. split; [rewrite S3; destruct (l_sym k); auto|].
  split; [intros HU; rewrite S3; rewrite (proj1 S1 HU); auto|]. split.
  - intros x Hx Tx. destruct (proj2 (A4 (ha_addr x))) as (la & K1 & K2 & K3); [eauto|]. split; auto. exists la. split; auto.
    destruct (co_laddr s' C) as [_ CL]. destruct (CL la K1) as (l & L1 & L2 & L3). rewrite K2 in L2.
    assert (l = k) by (pose proof (get_l_in s' _ l C L1 L2) as R1; pose proof (get_l_in s' _ k C Hk Dk) as R2; congruence). subst l. split; [congruence|]. split; auto. congruence.
  - intros D x Hx Lx. destruct (proj2 (A5 (ha_addr x))) as (na & K1 & K2 & K3); [eauto|]. exists na. split; auto. split; auto. split; [congruence|].
    refine (S4 D na x K1 K2 Hx Lx (eq_sym K3)).
Qed.

(** A router that accepts a HELLO answers it: its own HELLOs on this interface tell the addresses of the sending interface with the status of the
    link, which is heard or symmetric.  Missing: links that were symmetric before and are so no longer (C149, refuted). *)
Theorem C150_reply_partial : forall ops ifs e evs s h, reached ifs e evs s -> coherent s h -> (forall L, no_loop s h L) -> timely s h ->
  exists s' k, step s (EvHello h) = Ok s' /\ In k (s_l s') /\ (l_status k = HEARD \/ l_status k = SYMMETRIC) /\ (hears_us s h -> l_status k = SYMMETRIC) /\
    (hears_us s h \/ ~ was_sym s (l_id k) -> forall f h', sent ops s' (h_if h) f h' ->
       forall x, In x (h_addrs h) -> this_if x -> a_af (ha_addr x) = f -> exists y, In y (h_addrs h') /\ ha_addr y = ha_addr x /\ ha_status y = Some (l_status k)).
Proof.
  intros ops ifs e evs s h R CH NL T. apply reached_wf in R. destruct (reply s h R CH NL T) as (s' & k & E & W & _ & Hk & ST & HS & LA0 & NA0).
  exists s', k. split; auto. split; auto. split; auto. split; auto. intros D f h' [SA _ _] x Hx Tx F.
  destruct (NA0) with (x := x) as (na & N1 & N2 & N3 & N4); auto; [destruct D; auto|destruct Tx as (v & V & _); exists v; auto|].
  pose proof (LA0 x Hx Tx) as K. rewrite <- N2 in *. apply (hello_status ops s' (h_if h) f); auto using wf_consistent. intros P. destruct ST as [Q|Q]; rewrite Q in P; discriminate.
Qed.

(** Two routers with empty databases become symmetric neighbors with three HELLOs (from A, from B, from A), on an interface and in an address family in which both
    have addresses.  The hypotheses about the HELLOs: they are not taken for own ones, no link is held down by its quality, their
    validity times are not over.  Time may pass between the second and the third.  Missing: lost HELLOs before, more neighbors. *)
Theorem C150_handshake_partial : forall opsA opsB ifsA ifsB eA eB ia ib f a b h1 h2 h3 t sB1 sB1' sA1,
  In ia ifsA -> In ib ifsB -> a_af a = f -> a_af b = f -> now opsA ia a -> now opsB ib b ->
  e_own eA ia a = true -> e_own eB ib b = true ->
  let sA := init ifsA eA in let sB := init ifsB eB in
  sent opsA sA ia f h1 -> h_if h1 = ib -> (forall L, no_loop sB h1 L) -> timely sB h1 -> step sB (EvHello h1) = Ok sB1 ->
  sent opsB sB1 ib f h2 -> h_if h2 = ia -> (forall L, no_loop sA h2 L) -> timely sA h2 -> step sA (EvHello h2) = Ok sA1 ->
  step sB1 (EvTime t) = Ok sB1' ->
  sent opsA sA1 ia f h3 -> h_if h3 = ib -> (forall L, no_loop sB1' h3 L) -> timely sB1' h3 ->
  exists sB2 kA kB, step sB1' (EvHello h3) = Ok sB2 /\
    link_at sA1 ia b kA /\ l_status kA = SYMMETRIC /\ link_at sB2 ib a kB /\ l_status kB = SYMMETRIC.
Proof.
  intros opsA opsB ifsA ifsB eA eB ia ib f a b h1 h2 h3 t sB1 sB1' sA1 IA IB Fa Fb MA MB OA OB sA sB S1 I1 NL1 T1 E1 S2 I2 NL2 T2 E2 ET S3 I3 NL3 T3.
  (* A -> B *)
  assert (EMPTY : forall ifs e h a0, In (h_if h) ifs -> h_active h = true -> well_formed h -> NoDup (map ha_addr (h_addrs h)) ->
     (exists x, In x (h_addrs h) /\ ha_addr x = a0 /\ this_if x) -> coherent (init ifs e) h).
  { intros ifs e h a0 J1 J2 J3 J4 (x & J5 & _ & J6). constructor; auto.
    - exists x. auto.
    - intros i j (x0 & na & _ & _ & [] & _).
    - intros i j (x0 & la & _ & _ & [] & _).
    - intros l []. }
  pose proof (wf_init ifsA eA) as WA. pose proof (wf_init ifsB eB) as WB.
  destruct (hello_wellformed opsA sA ia f h1 a (wf_consistent _ WA) S1 MA Fa) as (H1 & H2 & H3).
  assert (CH1 : coherent sB h1) by (apply (EMPTY ifsB eB h1 a); auto; [congruence|apply S1]).
  destruct (reply sB h1 WB CH1 NL1 T1) as (z & k1 & Z1 & WB1 & AC1 & K1 & ST1 & _ & LA1 & NA1). rewrite E1 in Z1. okinj Z1.
  pose proof (wf_consistent _ WB1) as CB1. destruct H3 as (x1 & X1 & X2 & X3).
  destruct (NA1) with (x := x1) as (na1 & N1 & N2 & N3 & N4); auto; [right; intros (l & [] & _)|destruct X3 as (v & V & _); exists v; auto|].
  pose proof (LA1 x1 X1 X3) as LK1. rewrite I1 in LK1.
  assert (P1 : l_status k1 <> PENDING) by (intros P; destruct ST1 as [Q|Q]; rewrite Q in P; discriminate).
  (* B -> A *)
  destruct (hello_status opsB sB1 ib f (h_addrs h2) na1 CB1) with (k := k1) as (y1 & Y1 & Y2 & Y3); auto; [apply S2|congruence|rewrite N2; auto|].
  destruct (hello_wellformed opsB sB1 ib f h2 b CB1 S2 MB Fb) as (H4 & H5 & H6).
  assert (CH2 : coherent sA h2) by (apply (EMPTY ifsA eA h2 b); auto; [congruence|apply S2]).
  destruct (reply sA h2 WA CH2 NL2 T2) as (z & k2 & Z2 & WA1 & AC2 & K2 & _ & HS2 & LA2 & NA2). rewrite E2 in Z2. okinj Z2.
  assert (HU2 : hears_us sA h2).
  { exists y1, (l_status k1). split; auto. split; [cbn; rewrite I2, Y2, N2, X2; auto|]. split; auto. destruct ST1 as [Q|Q]; rewrite Q; discriminate. }
  specialize (HS2 HU2). destruct H6 as (x2 & X4 & X5 & X6). pose proof (wf_consistent _ WA1) as CA1.
  destruct (NA2) with (x := x2) as (na2 & N5 & N6 & N7 & N8); auto; [destruct X6 as (v & V & _); exists v; auto|].
  pose proof (LA2 x2 X4 X6) as LK2. rewrite I2 in LK2.
  (* A -> B *)
  destruct (hello_status opsA sA1 ia f (h_addrs h3) na2 CA1) with (k := k2) as (y2 & Y4 & Y5 & Y6); auto; [apply S3|congruence|rewrite N6; auto|rewrite HS2; discriminate|].
  destruct (hello_wellformed opsA sA1 ia f h3 a CA1 S3 MA Fa) as (H7 & H8 & H9).
  cbn [step] in ET. injection ET as ET.
  assert (V : s_l sB1' = s_l sB1 /\ s_na sB1' = s_na sB1 /\ s_la sB1' = s_la sB1 /\ s_env sB1' = s_env sB1 /\ s_ifs sB1' = s_ifs sB1 /\ wf sB1').
  { rewrite <- ET. destruct (s_now sB1 <=? t); auto 10 using wf_set_now. }
  clear ET. destruct V as (V1 & V2 & V3 & V4 & V5 & WB1').
  destruct AC1 as [_ _ _ B4 B5 _ _ B8 B9 _ (B11 & B12 & _)].
  assert (KN : forall i, known_neigh sB1' h3 i -> i = l_n k1).
  { intros i (x & na & _ & _ & Q1 & Q2 & Q3). rewrite V2 in Q1. destruct (Z.eq_dec i (l_n k1)) as [|NE]; auto. exfalso. rewrite <- Q3 in NE. apply (B8 na NE) in Q1. destruct Q1. }
  assert (KL : forall i, known_link sB1' h3 i -> i = l_id k1).
  { intros i (x & la & _ & _ & Q1 & Q2 & Q3 & Q4). rewrite V3 in Q1. destruct (Z.eq_dec i (l_id k1)) as [|NE]; auto. exfalso. rewrite <- Q4 in NE. apply (B9 la NE) in Q1. destruct Q1. }
  destruct H9 as (x3 & X7 & X8 & X9).
  assert (CH3 : coherent sB1' h3).
  { constructor; auto.
    - apply S3.
    - rewrite V5, B12, I3. auto.
    - exists x3. auto.
    - intros i j Hi Hj. rewrite (KN i Hi), (KN j Hj). auto.
    - intros i j Hi Hj. rewrite (KL i Hi), (KL j Hj). auto.
    - intros l Hl Hk. apply KL in Hk. rewrite V1 in Hl.
      assert (l = k1) by (pose proof (get_l_in sB1 _ l CB1 Hl eq_refl) as R1; pose proof (get_l_in sB1 _ k1 CB1 K1 eq_refl) as R2; congruence). subst l.
      exists x3, na1. split; auto. split; [destruct X9 as (v & V & _); exists v; auto|]. rewrite V2. split; auto. split; congruence. }
  destruct (reply sB1' h3 WB1' CH3 NL3 T3) as (sB2 & k3 & Z3 & WB2 & AC3 & K3 & _ & HS3 & LA3 & _).
  assert (HU3 : hears_us sB1' h3).
  { exists y2, (l_status k2). split; auto. split; [rewrite V4, B11, I3, Y5, N6, X5; auto|]. split; auto. rewrite HS2. discriminate. }
  exists sB2, k2, k3. split; auto. split; [rewrite <- X5; auto|]. split; auto. split; [|auto]. rewrite <- X8. rewrite <- I3. auto.
Qed.
(** the routers 101 and 105 *)
Definition ex_peer : env :=
  {| e_own := fun i a => addr_eqb a (2, 105); e_any := fun a => addr_eqb a (2, 105); e_orig := fun _ => UNSPEC;
     e_mac := fun _ => (5, 2); e_nhold := fun _ => 1000; e_lhold := fun _ => 1000; e_pend := fun _ => false; e_hlost := fun _ => false |}.
Definition from (i src : Z) (l : res (list haddr)) : hello :=
  {| h_if := i; h_ok := true; h_active := true; h_addrlen := 4; h_hasorig := false; h_orig := UNSPEC; h_v4 := UNSPEC;
     h_mac := UNSPEC; h_src := (2, src); h_vtime := 1000; h_addrs := match l with Ok l => l | Bad _ => [] end |}.
Definition unres (r : res db) (d : db) : db := match r with Ok s => s | Bad _ => d end.
Example C150_ex : let opsA := [IfEvent 1 [(2, 101)]] in let opsB := [IfEvent 7 [(2, 105)]] in
  let sA := ex_node in let sB := init [7] ex_peer in
  let h1 := from 7 101 (hello_addrs (ifrun opsA) sA 1 2) in
  let sB1 := unres (step sB (EvHello h1)) sB in
  let h2 := from 1 105 (hello_addrs (ifrun opsB) sB1 7 2) in
  let sA1 := unres (step sA (EvHello h2)) sA in
  let sB1' := unres (step sB1 (EvTime 500)) sB1 in
  let h3 := from 7 101 (hello_addrs (ifrun opsA) sA1 1 2) in
  now opsA 1 (2, 101) /\ now opsB 7 (2, 105) /\ sent opsA sA 1 2 h1 /\ (forall L, no_loop sB h1 L) /\ timely sB h1 /\ step sB (EvHello h1) = Ok sB1 /\
  sent opsB sB1 7 2 h2 /\ (forall L, no_loop sA h2 L) /\ timely sA h2 /\ step sA (EvHello h2) = Ok sA1 /\
  step sB1 (EvTime 500) = Ok sB1' /\ sent opsA sA1 1 2 h3 /\ (forall L, no_loop sB1' h3 L) /\ timely sB1' h3.
Proof.
  intros opsA opsB sA sB h1 sB1 h2 sA1 sB1' h3.
  assert (NL : forall s h L, e_own (s_env s) (h_if h) (h_src h) = false -> (forall f, e_orig (s_env s) f = UNSPEC) -> e_pend (s_env s) L = false -> e_hlost (s_env s) L = false ->
    e_mac (s_env s) (h_if h) <> h_mac h -> forallb (fun l => negb (addr_eqb (l_mac l) (e_mac (s_env s) (h_if h)))) (s_l s) = true -> no_loop s h L).
  { intros s h L A B C D E F. constructor; auto.
    - rewrite B. left. reflexivity.
    - split; auto. rewrite forallb_forall in F. intros l Hl. apply F in Hl. apply negb_true_iff, addr_eqb_neq in Hl. auto. }
  assert (TI : forall s h, (0 <=? s_now s) && (0 <? h_vtime h) && (s_now s + h_vtime h <? 2 ^ 64) && forallb (fun l => negb (active (l_sym l))) (s_l s) = true -> timely s h).
  { intros s h B. do 3 (apply andb_true_iff in B; destruct B as [B ?B]). split; [lia|]. split; [lia|]. split; [lia|]. rewrite forallb_forall in B0.
    intros l d Hl E. apply B0 in Hl. rewrite E in Hl. discriminate. }
  unfold now. cbn [rev app opsA opsB current Z.eqb Pos.eqb In]. split; auto. split; auto.
  split; [split; vm_compute; reflexivity|]. split; [intros; apply NL; intros; vm_compute; congruence|]. split; [apply TI; vm_compute; reflexivity|].
  split; [vm_compute; reflexivity|].
  split; [split; vm_compute; reflexivity|]. split; [intros; apply NL; intros; vm_compute; congruence|]. split; [apply TI; vm_compute; reflexivity|].
  split; [vm_compute; reflexivity|]. split; [vm_compute; reflexivity|].
  split; [split; vm_compute; reflexivity|]. split; [intros; apply NL; intros; vm_compute; congruence|]. apply TI; vm_compute; reflexivity.
Qed.

Print Assumptions C148_own_addresses_partial.
Print Assumptions C148_moved_address_refuted.
Print Assumptions C149_neighbor_addresses_partial.
Print Assumptions C149_symmetric_partial.
Print Assumptions C149_heard_link_refuted.
Print Assumptions C150_reply_partial.
Print Assumptions C150_handshake_partial.
