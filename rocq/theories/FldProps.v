(** Property C151: flooded messages are sent in a family in which every symmetric neighbor gets them. *)
From Verif Require Import Base BufLemmas NhdpModel NhdpSpec NhdpProofs NhdpHello NhdpCounts NhdpPost NhdpProps NhdpPostProps HwModel HwSpec HwProofs HwProps FldModel.

(** the link [k] of interface [i] is symmetric, its neighbor is known as a router of family [f] *)
Definition router (s : db) (i f : Z) (k : link) : Prop :=
  In k (s_l s) /\ l_if k = i /\ l_status k = SYMMETRIC /\ exists n, In n (s_n s) /\ n_id n = l_n k /\ a_af (n_orig n) = f.
(** the two links of a router with both families *)
Definition both (s : db) (i : Z) (k p : link) : Prop := router s i AF_INET k /\ router s i AF_INET6 p /\ l_dual k = Some (l_id p) /\ l_dual p = Some (l_id k).

Definition is4 s i (k : link) : Prop := router s i AF_INET k /\ l_dual k = None.
Definition is6 s i (k : link) : Prop := router s i AF_INET6 k /\ l_dual k = None.
Definition isd s i (k : link) : Prop := router s i AF_INET k /\ l_dual k <> None.
Lemma counts_ok s i : consistent s -> forall ls t, Forall (fun l => In l (s_l s) /\ l_if l = i) ls -> 0 <= t_v4 t -> 0 <= t_v6 t -> 0 <= t_dual t ->
  exists t', counts s ls t = Ok t' /\ 0 <= t_v4 t' /\ 0 <= t_v6 t' /\ 0 <= t_dual t' /\
    (t_v4 t' > 0 <-> t_v4 t > 0 \/ exists k, In k ls /\ is4 s i k) /\
    (t_v6 t' > 0 <-> t_v6 t > 0 \/ exists k, In k ls /\ is6 s i k) /\
    (t_dual t' > 0 <-> t_dual t > 0 \/ exists k, In k ls /\ isd s i k).
Proof.
  intros C. induction ls as [|l ls IH]; intros t F P4 P6 PD; cbn [counts].
  - exists t. split; auto. split; auto. split; auto. split; auto. split; [|split]; (split; [auto|intros [?|(k & [] & _)]; auto]).
  - inversion F as [|? ? (F1 & F2) F3]; subst. destruct (co_link s C l F1) as (Q & _). apply in_map_iff in Q. destruct Q as (n & Hn & En).
    unfold count. destruct (Z.eqb_spec (l_status l) SYMMETRIC) as [ST|ST]; cbn [negb].
    2: { cbn [rbind]. destruct (IH t F3 P4 P6 PD) as (t' & E & R1 & R2 & R3 & R4 & R5 & R6). exists t'. split; auto. split; auto. split; auto. split; auto.
         rewrite R4, R5, R6. split; [|split]; (split; intros [?|(k & K1 & K2)]; auto; right;
           [exists k; split; [now right|auto]|destruct K1 as [<-|K1]; [destruct K2 as ((_ & _ & S0 & _) & _); congruence|eauto]]). }
    rewrite (get_n_in s _ n C En Hn). cbn [rbind]. cbv zeta.
    assert (U : forall f, router s (l_if l) f l <-> a_af (n_orig n) = f).
    { intros f. split.
      - intros (_ & _ & _ & m & M1 & M2 & M3). pose proof (get_n_in s _ n C En Hn) as X1. pose proof (get_n_in s _ m C M1 M2) as X2. congruence.
      - intros <-. split; auto. split; auto. split; auto. exists n. auto. }
    assert (DU : active (l_dual l) = true <-> l_dual l <> None) by (destruct (l_dual l); cbn; split; congruence).
    assert (ex : forall P : link -> Prop, (exists k, In k (l :: ls) /\ P k) <-> P l \/ exists k, In k ls /\ P k).
    { intros P. split; [intros (k & [<-|K1] & K2); eauto|intros [K|(k & K1 & K2)]; [exists l; split; [now left|auto]|exists k; split; [now right|auto]]]. }
    assert (I4 : is4 s (l_if l) l <-> a_af (n_orig n) = AF_INET /\ l_dual l = None) by (unfold is4; rewrite U; tauto).
    assert (I6 : is6 s (l_if l) l <-> a_af (n_orig n) = AF_INET6 /\ l_dual l = None) by (unfold is6; rewrite U; tauto).
    assert (ID : isd s (l_if l) l <-> a_af (n_orig n) = AF_INET /\ l_dual l <> None) by (unfold isd; rewrite U; tauto).
    destruct (active (l_dual l)) eqn:D.
    + assert (DN : l_dual l <> None) by (now apply DU). destruct (Z.eqb_spec (a_af (n_orig n)) AF_INET) as [A|A].
      * edestruct (IH {| t_v4 := t_v4 t; t_v6 := t_v6 t; t_dual := t_dual t + 1 |} F3) as (t' & E & R1 & R2 & R3 & R4 & R5 & R6); cbn; auto; [lia|].
        exists t'. cbn in *. split; auto. split; auto. split; auto. split; auto. rewrite R4, R5, R6, !ex, I4, I6, ID.
        split; [tauto|]. split; [tauto|]. split; auto. intros _. left. lia.
      * destruct (IH t F3 P4 P6 PD) as (t' & E & R1 & R2 & R3 & R4 & R5 & R6). exists t'. split; auto. split; auto. split; auto. split; auto.
        rewrite R4, R5, R6, !ex, I4, I6, ID. tauto.
    + assert (DN : l_dual l = None) by (destruct (l_dual l); [discriminate|auto]). destruct (Z.eqb_spec (a_af (n_orig n)) AF_INET) as [A|A].
      * edestruct (IH {| t_v4 := t_v4 t + 1; t_v6 := t_v6 t; t_dual := t_dual t |} F3) as (t' & E & R1 & R2 & R3 & R4 & R5 & R6); cbn; auto; [lia|].
        exists t'. cbn in *. split; auto. split; auto. split; auto. split; auto. rewrite R4, R5, R6, !ex, I4, I6, ID. rewrite A. 
        split; [split; auto; intros _; left; lia|]. split; [|tauto]. split; [tauto|]. intros [?|[(X & _)|?]]; auto. discriminate.
      * destruct (Z.eqb_spec (a_af (n_orig n)) AF_INET6) as [B|B].
        -- edestruct (IH {| t_v4 := t_v4 t; t_v6 := t_v6 t + 1; t_dual := t_dual t |} F3) as (t' & E & R1 & R2 & R3 & R4 & R5 & R6); cbn; auto; [lia|].
           exists t'. cbn in *. split; auto. split; auto. split; auto. split; auto. rewrite R4, R5, R6, !ex, I4, I6, ID.
           split; [tauto|]. split; [|tauto]. split; auto. intros _. left. lia.
        -- destruct (IH t F3 P4 P6 PD) as (t' & E & R1 & R2 & R3 & R4 & R5 & R6). exists t'. split; auto. split; auto. split; auto. split; auto.
           rewrite R4, R5, R6, !ex, I4, I6, ID. tauto.
Qed.
Lemma flags_spec s i : consistent s -> exists f, update_flags s i = Ok f /\
  let v4 := exists k, is4 s i k in let v6 := exists k, is6 s i k in let du := exists k, isd s i k in
  (f_v4 f || (f_dual f =? AF_INET) = true <-> v4) /\ (f_v6 f || (f_dual f =? AF_INET6) = true <-> v6 \/ ~ v4 /\ du).
Proof.
  intros C. unfold update_flags. destruct (counts_ok s i C (filter (fun l => l_if l =? i) (s_l s)) {| t_v4 := 0; t_v6 := 0; t_dual := 0 |}) as (t & E & P4 & P6 & PD & R4 & R6 & RD); cbn; try lia.
  { apply Forall_forall. intros l H. apply filter_In in H. destruct H as [H1 H2]. apply Z.eqb_eq in H2. auto. }
  rewrite E. cbn [rbind]. eexists. split; [reflexivity|]. cbn [f_v4 f_v6 f_dual]. cbn in R4, R6, RD.
  assert (X : forall P : link -> Prop, (forall k, P k -> In k (s_l s) /\ l_if k = i) -> ((0 > 0 \/ exists k, In k (filter (fun l => l_if l =? i) (s_l s)) /\ P k) <-> exists k, P k)).
  { intros P H. split; [intros [?|(k & _ & K)]; [lia|eauto]|]. intros (k & K). right. exists k. split; auto. apply filter_In. destruct (H k K) as [H1 H2]. split; auto. now apply Z.eqb_eq. }
  rewrite X in R4 by (intros k ((H1 & H2 & _) & _); auto). rewrite X in R6 by (intros k ((H1 & H2 & _) & _); auto). rewrite X in RD by (intros k ((H1 & H2 & _) & _); auto).
  cbv zeta. rewrite <- R4, <- R6, <- RD. unfold AF_INET, AF_INET6. clear -P4 P6 PD.
  destruct (Z.gtb_spec (t_v4 t) 0), (Z.gtb_spec (t_v6 t) 0), (Z.gtb_spec (t_dual t) 0), (Z.eqb_spec (t_v4 t) 0), (Z.eqb_spec (t_v6 t) 0); cbn; try lia.
Qed.

(** Every symmetric neighbor that uses one family gets the message in this family, and every one that uses both families, with symmetric links in both, gets it in one of them.
    Nothing is sent in a family that only neighbors with both families use, unless it is IPv6 and there is no neighbor with IPv4 only.
    In full the property is about all symmetric neighbors.  Missing: neighbors with both families of whom only one link is symmetric (refuted below). *)
Theorem C151_flooding_partial : forall ifs e evs s i, reached ifs e evs s -> In i (s_ifs s) ->
  exists b4 b6, selector s (Multicast4 i) = Ok b4 /\ selector s (Multicast6 i) = Ok b6 /\
    (forall k, router s i AF_INET k -> l_dual k = None -> b4 = true) /\
    (forall k, router s i AF_INET6 k -> l_dual k = None -> b6 = true) /\
    (forall k p, both s i k p -> b4 = true \/ b6 = true) /\
    (b4 = true -> exists k, router s i AF_INET k /\ l_dual k = None) /\
    (b6 = true -> (exists k, router s i AF_INET6 k /\ l_dual k = None) \/
                  (exists k, router s i AF_INET k /\ l_dual k <> None) /\ forall k, router s i AF_INET k -> l_dual k <> None).
Proof.
  intros ifs e evs s i R I0. apply reached_wf in R. pose proof (wf_consistent _ R) as C. destruct (flags_spec s i C) as (f & E & S4 & S6). cbv zeta in S4, S6.
  cbn [selector]. replace (existsb (Z.eqb i) (s_ifs s)) with true by (symmetry; apply existsb_exists; exists i; split; auto; apply Z.eqb_refl).
  rewrite E. cbn [rbind]. eexists. eexists. split; [reflexivity|]. split; [reflexivity|]. unfold is4, is6, isd in *.
  split; [intros k K1 K2; apply S4; eauto|]. split; [intros k K1 K2; apply S6; eauto|]. split; [|split].
  - intros k p (K1 & K2 & K3 & K4). destruct (f_v4 f || (f_dual f =? AF_INET)) eqn:B; auto. right. apply S6. right. split.
    + intros V. apply S4 in V. discriminate.
    + exists k. split; auto. congruence.
  - intros B. now apply S4.
  - intros B. apply S6 in B. destruct B as [B|(B1 & k & B2 & B3)]; auto. right. split; [eauto|]. intros k' K' N. apply B1. eauto.
Qed.

(** messages are flooded to the multicast targets of interfaces that NHDP knows, and to no other ones *)
Theorem C151_multicast_only_partial : forall s t, selector s t = Ok true -> exists i, In i (s_ifs s) /\ (t = Multicast4 i \/ t = Multicast6 i).
Proof.
  intros s t H. destruct t as [i|i|i]; cbn [selector] in H; [| |discriminate];
    (destruct (existsb (Z.eqb i) (s_ifs s)) eqn:E; [|discriminate]; apply existsb_exists in E; destruct E as (j & J1 & J2); apply Z.eqb_eq in J2;
     subst j; exists i; auto).
Qed.

(** ** Example: a router with both families, its links in both symmetric *)
Definition ex_env6 : env :=
  {| e_own := fun i a => addr_eqb a (2, 101) || addr_eqb a (10, 101); e_any := fun a => addr_eqb a (2, 101) || addr_eqb a (10, 101); e_orig := fun _ => UNSPEC;
     e_mac := fun _ => (5, 1); e_nhold := fun _ => 1000; e_lhold := fun _ => 1000; e_pend := fun _ => false; e_hlost := fun _ => false |}.
Definition ad (f v : Z) (l s : option Z) : haddr := {| ha_addr := (f, v); ha_ok1 := true; ha_ok2 := true; ha_local := l; ha_status := s; ha_other := None |}.
Definition hello4 (vt : Z) : event :=
  EvHello {| h_if := 1; h_ok := true; h_active := true; h_addrlen := 4; h_hasorig := true; h_orig := (2, 5); h_v4 := UNSPEC;
             h_mac := UNSPEC; h_src := (2, 5); h_vtime := vt; h_addrs := [ad 2 5 (Some 0) None; ad 2 101 None (Some 2)] |}.
Definition hello6 (vt : Z) : event :=
  EvHello {| h_if := 1; h_ok := true; h_active := true; h_addrlen := 16; h_hasorig := true; h_orig := (10, 5); h_v4 := (2, 5);
             h_mac := UNSPEC; h_src := (10, 5); h_vtime := vt; h_addrs := [ad 10 5 (Some 0) None; ad 10 101 None (Some 2)] |}.
Definition node6 : db := init [1] ex_env6.
Example C151_ex : exists s k p, reached [1] ex_env6 [hello4 1000; hello6 1000] s /\ both s 1 k p /\ selector s (Multicast4 1) = Ok false /\ selector s (Multicast6 1) = Ok true.
Proof.
  eexists. eexists. eexists. split; [split; [apply (guarded_weak counting_event); [apply counting_safe|apply guardb_ok; vm_compute; reflexivity]|vm_compute; reflexivity]|].
  split; [|split; vm_compute; reflexivity]. split; [|split].
  - split; [left; reflexivity|]. split; [reflexivity|]. split; [reflexivity|]. eexists. split; [left; reflexivity|]. split; reflexivity.
  - split; [right; left; reflexivity|]. split; [reflexivity|]. split; [reflexivity|]. eexists. split; [right; left; reflexivity|]. split; reflexivity.
  - split; reflexivity.
Qed.
(** Its IPv4 link is lost: nothing is flooded to it any more, though its IPv6 link is symmetric. *)
Theorem C151_lost_ipv4_refuted : exists evs s k,
  reached [1] ex_env6 evs s /\ router s 1 AF_INET6 k /\ selector s (Multicast4 1) = Ok false /\ selector s (Multicast6 1) = Ok false.
Proof.
  exists [hello4 1000; hello6 5000; EvTime 2000; EvSym 2]. eexists. eexists.
  split; [split; [apply (guarded_weak counting_event); [apply counting_safe|apply guardb_ok; vm_compute; reflexivity]|vm_compute; reflexivity]|].
  split; [|split; vm_compute; reflexivity].
  split; [right; left; reflexivity|]. split; [reflexivity|]. split; [reflexivity|]. eexists. split; [right; left; reflexivity|]. split; reflexivity.
Qed.
(** Its IPv6 link is lost: messages are flooded in IPv6 only, though only its IPv4 link is symmetric. *)
Theorem C151_lost_ipv6_refuted : exists evs s k,
  reached [1] ex_env6 evs s /\ router s 1 AF_INET k /\ (forall p, ~ router s 1 AF_INET6 p) /\
  selector s (Multicast4 1) = Ok false /\ selector s (Multicast6 1) = Ok true.
Proof.
  exists [hello4 5000; hello6 1000; EvTime 2000; EvSym 4]. eexists. eexists.
  split; [split; [apply (guarded_weak counting_event); [apply counting_safe|apply guardb_ok; vm_compute; reflexivity]|vm_compute; reflexivity]|].
  split; [|split; [|split; vm_compute; reflexivity]].
  - split; [left; reflexivity|]. split; [reflexivity|]. split; [reflexivity|]. eexists. split; [left; reflexivity|]. split; reflexivity.
  - intros p (P1 & _ & P2 & n & N1 & N2 & N3). cbn in P1. destruct P1 as [<-|[<-|[]]]; [|discriminate]. cbn in N1. destruct N1 as [<-|[<-|[]]]; cbn in N2, N3; discriminate.
Qed.

Print Assumptions C151_flooding_partial.
Print Assumptions C151_lost_ipv4_refuted.
Print Assumptions C151_lost_ipv6_refuted.
Print Assumptions C151_multicast_only_partial.
