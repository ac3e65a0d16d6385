(** Theorems about the registry of metric and MPR algorithms: C77, C78. *)
From Verif Require Import Base StrBase CompModel CompProofs DomModel DomRegModel DomRegSpec DomRegProofs.
From Verif Require DomLink.

(** * C77: references to algorithms *)
(** Over all sequences of registrations, removals, new domains and configuration:
    the code never fails, the reference count of an algorithm is the number of its
    domains, and the algorithm is switched on exactly when it has one; it is
    switched on only when off and off only when on. *)
Theorem C77_refcount : forall mpr default names ops,
  Forall cstr (default :: names) -> guarded valid mpr (init default names) ops ->
  exists r, run mpr (init default names) ops = Some r /\
    (forall k a, zget (r_algs r) k = Some a -> a_ref a = users (r_slots r) k) /\
    (forall k, 1 <= k < zlen (r_algs r) ->
       (on (r_log r) k = true <-> exists s, In s (r_slots r) /\ s_alg s = k) /\ alternates k (r_log r)).
Proof.
  intros mpr default names ops C G.
  destruct (run_ok valid mpr (default :: names) (fun r o H => H) C ops (init default names) (init_inv default names) G) as (r & E & W & So).
  exists r. split; auto. destruct W as [N T F S0 R O]. split; auto. intros k Hk. rewrite (algs_len _ _ N) in Hk.
  destruct (O k Hk) as (O1 & O2). split; auto. rewrite O1. apply users_pos.
Qed.

(** When algorithms are only removed that are used by at most one domain, and not
    by the flooding domain, then all domains have a registered algorithm or the
    default. *)
Theorem C77_registered_partial : forall mpr default names ops,
  Forall cstr (default :: names) -> guarded safe mpr (init default names) ops ->
  exists r, run mpr (init default names) ops = Some r /\ registered r.
Proof.
  intros mpr default names ops C G.
  assert (forall ops r, inv (default :: names) r -> registered r -> guarded safe mpr r ops ->
    exists r', run mpr r ops = Some r' /\ registered r') as H.
  { clear ops G. induction ops as [|o ops IH]; intros r Iv Re Gd; cbn [run]; [eauto|].
    destruct Gd as (Sf & Gd). destruct (step_ok mpr _ r o Iv C (proj1 Sf)) as (r1 & E & I1). rewrite E in *.
    apply IH; auto. exact (step_registered mpr (default :: names) r o Iv C Sf Re r1 E). }
  apply H; auto; [apply init_inv|apply init_registered].
Qed.

Definition metric_names := [zs "ff_dat_metric"; zs "constant_metric"].
Definition two_domains := [AlgAdd 1; AlgAdd 2; DomainAdd; DomainAdd; Configure 1 ANY_NAME; Configure 2 (zs "Constant_Metric")].
Definition removals := two_domains ++ [Configure 2 (zs "other"); Configure 1 (zs "constant_metric"); AlgRemove 2; AlgRemove 1].
Example C77_ex : guarded safe false (init (zs "Hopcount metric") metric_names) removals /\
  exists r, run false (init (zs "Hopcount metric") metric_names) removals = Some r /\
    r_slots r = [mkSlot [] 0; mkSlot NO_NAME 0; mkSlot (zs "Hopcount metric") 0] /\
    r_log r = [Enable 2; Disable 2] /\ map a_ref (r_algs r) = [3; 0; 0].
Proof.
  split; [vm_compute; intuition (try discriminate; try lia)|].
  eexists. split; [vm_compute; reflexivity|]. repeat split; reflexivity.
Qed.

(** Removing an algorithm that two domains use leaves the second one with it. *)
Theorem C77_two_domains_refuted : exists ops r,
  guarded valid false (init (zs "Hopcount metric") metric_names) ops /\
  run false (init (zs "Hopcount metric") metric_names) ops = Some r /\
  ~ In 1 (r_tree r) /\ (exists s, In s (r_slots r) /\ s_alg s = 1) /\ on (r_log r) 1 = true.
Proof.
  exists [AlgAdd 1; DomainAdd; DomainAdd; Configure 1 ANY_NAME; Configure 2 ANY_NAME; AlgRemove 1].
  eexists. split; [vm_compute; intuition (try discriminate; try lia)|]. split; [vm_compute; reflexivity|].
  split; [intros []|]. split; [eexists; split; [right; right; left; reflexivity|reflexivity]|reflexivity].
Qed.
(** Removing an MPR algorithm leaves the flooding domain with it, even when it is
    the only user. *)
Theorem C77_flooding_refuted : exists ops r,
  guarded valid true (init (zs "Everyone MPR") [zs "mpr"]) ops /\
  run true (init (zs "Everyone MPR") [zs "mpr"]) ops = Some r /\
  users (r_slots r) 1 = 1 /\ ~ In 1 (r_tree r) /\ (exists s, zget (r_slots r) 0 = Some s /\ s_alg s = 1) /\ on (r_log r) 1 = true.
Proof.
  exists [AlgAdd 1; Configure 0 ANY_NAME; AlgRemove 1].
  eexists. split; [vm_compute; intuition (try discriminate; try lia)|]. split; [vm_compute; reflexivity|].
  split; [reflexivity|]. split; [intros []|]. split; [eexists; split; reflexivity|reflexivity].
Qed.

(** * C78: configured names *)
(** Configuring a domain with a name leaves it with the registered algorithm of
    that name, with the first registered one for "*", and with the default when
    there is none. *)
Theorem C78_configure_partial : forall mpr default names ops i nm,
  good_names default names -> guarded safe mpr (init default names) (ops ++ [Configure i nm]) ->
  exists r s, run mpr (init default names) (ops ++ [Configure i nm]) = Some r /\
    zget (r_slots r) i = Some s /\ chosen r nm (s_alg s).
Proof.
  intros mpr default names ops i nm G Gd. pose proof Gd as Gd0. apply guarded_app in Gd. destruct Gd as (G1 & G2).
  destruct (run_good mpr default names G ops _ (init_inv default names) (init_named default names) (init_registered default names) G1)
    as (r1 & E1 & I1 & N1 & R1).
  destruct (run_good mpr default names G _ _ (init_inv default names) (init_named default names) (init_registered default names) Gd0)
    as (r & E & _). exists r.
  destruct (run_split _ _ _ _ _ E) as (r2 & E2 & St). rewrite E1 in E2. injection E2 as <-. cbn [step] in St.
  specialize (G2 r1 E1). cbn in G2. destruct G2 as ((V & _) & _). cbn in V.
  destruct (configure_chosen default names r1 i nm r G I1 R1 N1 V St) as (s & Hs & Ch). exists s. auto.
Qed.

(** Configuring the same name again (not "*") calls nothing and changes no domain. *)
Theorem C78_no_restart_partial : forall mpr default names ops i nm r,
  good_names default names -> strcase_eqb nm ANY_NAME = false ->
  guarded safe mpr (init default names) (ops ++ [Configure i nm]) ->
  run mpr (init default names) (ops ++ [Configure i nm]) = Some r ->
  exists r', step mpr r (Configure i nm) = Some r' /\ r_log r' = r_log r /\
    forall j, zget (r_slots r') j = zget (r_slots r) j.
Proof.
  intros mpr default names ops i nm r G NA Gd E. pose proof Gd as Gd0. apply guarded_app in Gd. destruct Gd as (G1 & G2).
  destruct (run_good mpr default names G ops _ (init_inv default names) (init_named default names) (init_registered default names) G1)
    as (r1 & E1 & I1 & N1 & R1).
  destruct (run_good mpr default names G _ _ (init_inv default names) (init_named default names) (init_registered default names) Gd0)
    as (r0 & E0 & I & N & R). rewrite E in E0. injection E0 as <-.
  destruct (run_split _ _ _ _ _ E) as (r2 & E2 & St). rewrite E1 in E2. injection E2 as <-. cbn [step] in St |- *.
  specialize (G2 r1 E1). cbn in G2. destruct G2 as ((V & _) & _). cbn in V.
  destruct (configure_chosen default names r1 i nm r G I1 R1 N1 V St) as (s & Hs & Ch).
  assert (names_ok (default :: names)) as C.
  { destruct G as (C0 & L0 & A0 & FN). constructor; auto. rewrite Forall_forall in *. intros x Hx. apply (FN x Hx). }
  destruct I as (W & So).
  destruct (apply_alg_ok _ r i s nm W C So Hs) as [(_ & Q)|(Ne & r' & k & n & sl & Ea & W' & T' & Ck & Ik & Hn & ES & EG & EL)]; [exists r; auto|].
  exists r'. split; auto.
  pose proof (N s (proj2 (DomLink.In_zget' _ _) (ex_intro _ i Hs))) as Sn.
  (* the domain has no algorithm, and there is none with this name *)
  assert (forall k0, chosen r nm k0 -> (k0 = 0 \/ In k0 (r_tree r)) -> k0 <> 0 -> exists m, name_of r k0 = Some m /\ strcase_eqb m nm = true) as CH.
  { intros k0 [(m & I0 & Hm & [Em|(Ea' & _)])|(Z0 & _)] _ NZ; [eauto|congruence|congruence]. }
  assert (s_alg s = 0) as Z0.
  { destruct (Z.eq_dec (s_alg s) 0); auto. exfalso. destruct (CH _ Ch (R s (proj2 (DomLink.In_zget' _ _) (ex_intro _ i Hs))) n0) as (m & Hm & Em).
    destruct Sn as [(Q & _)|(Q & Sn)]; [lia|]. rewrite (name_of_names _ _ _ (w_names _ _ W)) in Hm. unfold nameof in Sn. rewrite Hm in Sn. congruence. }
  rewrite Z0 in Ch.
  assert (k = 0) as K0.
  { destruct (Z.eq_dec k 0); auto. exfalso. destruct (CH _ Ck Ik n0) as (m & Hm & Em).
    destruct Ik as [Q|Ik]; [lia|]. destruct Ch as [(m' & I0 & _)|(_ & Ch)].
    - pose proof (w_tree _ _ W) as T. rewrite Forall_forall in T. specialize (T 0 I0). cbn in T. lia.
    - destruct (Ch k m Ik Hm). congruence. }
  subst k.
  assert (zget (r_slots r') i = Some (mkSlot (copy_name n) 0)) as Hs' by (rewrite ES, EG, Z.eqb_refl; auto).
  split; [eapply apply_quiet; eauto|].
  intros j. rewrite ES, EG. destruct (Z.eqb_spec j i) as [->|]; auto.
  (* the slot had the name of the default already *)
  assert (n = default) as ->.
  { rewrite (name_of_names _ _ _ (w_names _ _ W)) in Hn. cbn in Hn. injection Hn as <-. reflexivity. }
  rewrite Hs. destruct (zget_Some (r_slots r1) i V) as (s1 & Hs1). destruct I1 as (W1 & So1).
  destruct (apply_alg_ok _ r1 i s1 nm W1 C So1 Hs1) as [(Q & Q1)|(Ne1 & r3 & k & n & sl1 & Ea1 & W3 & T3 & Ck3 & Ik3 & Hn3 & ES3 & EG3 & EL3)].
  - rewrite Q1 in St. injection St as <-. rewrite Hs in Hs1. injection Hs1 as <-. congruence.
  - rewrite Ea1 in St. injection St as <-. rewrite ES3, EG3, Z.eqb_refl in Hs. injection Hs as <-. cbn in Z0. subst k.
    rewrite (name_of_names _ _ _ (w_names _ _ W1)) in Hn3. cbn in Hn3. injection Hn3 as <-. reflexivity.
Qed.

Lemma metric_names_good : good_names (zs "Hopcount metric") metric_names.
Proof. vm_compute. repeat constructor; intuition (try discriminate; try lia). Qed.
Example C78_ex : good_names (zs "Hopcount metric") metric_names /\
  guarded safe false (init (zs "Hopcount metric") metric_names) two_domains /\
  exists r, run false (init (zs "Hopcount metric") metric_names) two_domains = Some r /\
    r_slots r = [mkSlot [] 0; mkSlot (zs "constant_metric") 2; mkSlot (zs "constant_metric") 2] /\ r_log r = [Enable 2].
Proof.
  split; [apply metric_names_good|]. split; [vm_compute; intuition (try discriminate; try lia)|].
  eexists. split; [vm_compute; reflexivity|]. split; reflexivity.
Qed.

(** Configuring "*" again switches the algorithm off and on again. *)
Theorem C78_any_restart_refuted : exists ops i r,
  good_names (zs "Hopcount metric") metric_names /\
  guarded safe false (init (zs "Hopcount metric") metric_names) (ops ++ [Configure i ANY_NAME; Configure i ANY_NAME]) /\
  run false (init (zs "Hopcount metric") metric_names) (ops ++ [Configure i ANY_NAME; Configure i ANY_NAME]) = Some r /\
  r_log r = [Enable 1; Disable 1; Enable 1].
Proof.
  exists [AlgAdd 1; DomainAdd], 1. eexists. split; [apply metric_names_good|].
  split; [vm_compute; intuition (try discriminate; try lia)|]. split; [vm_compute; reflexivity|reflexivity].
Qed.
(** With a name of more than 15 characters the first 15 stand for the algorithm
    afterwards. *)
Theorem C78_long_name_refuted : exists name ops i nm r s,
  cstr name /\
  guarded safe false (init (zs "Hopcount metric") [name]) (ops ++ [Configure i nm]) /\
  run false (init (zs "Hopcount metric") [name]) (ops ++ [Configure i nm]) = Some r /\
  zget (r_slots r) i = Some s /\ s_alg s = 1 /\ ~ chosen r nm (s_alg s).
Proof.
  exists (zs "directional_metric"), [AlgAdd 1; DomainAdd; Configure 1 (zs "directional_metric")], 1, (zs "directional_met").
  eexists. eexists. split; [vm_compute; repeat constructor; intuition (try discriminate; try lia)|].
  split; [vm_compute; intuition (try discriminate; try lia)|]. split; [vm_compute; reflexivity|].
  split; [reflexivity|]. split; [reflexivity|]. cbn [s_alg].
  intros [(n & I & Hn & [E|(E & _)])|(E & _)]; [|discriminate|discriminate].
  vm_compute in Hn. injection Hn as <-. discriminate.
Qed.
(** A domain that was configured before its algorithm is registered keeps the
    default, although mpr_add offers the new algorithm to these domains. *)
Theorem C78_late_refuted : exists r s,
  run true (init (zs "Everyone MPR") [zs "mpr"]) [DomainAdd; Configure 1 (zs "mpr"); Configure 0 ANY_NAME; AlgAdd 1] = Some r /\
  zget (r_slots r) 1 = Some s /\ s_alg s = 0 /\ zget (r_slots r) 0 = Some s /\ r_tree r = [1] /\ r_log r = [].
Proof. eexists. eexists. split; [vm_compute; reflexivity|]. repeat split; reflexivity. Qed.
(** More than that: registering an algorithm never changes any domain. *)
Theorem C78_add_changes_nothing : forall mpr default names ops k,
  Forall cstr (default :: names) -> guarded valid mpr (init default names) (ops ++ [AlgAdd k]) ->
  exists r r', run mpr (init default names) ops = Some r /\ run mpr (init default names) (ops ++ [AlgAdd k]) = Some r' /\
    r_slots r' = r_slots r /\ r_log r' = r_log r.
Proof.
  intros mpr default names ops k C G. pose proof G as G0. apply guarded_app in G. destruct G as (G1 & G2).
  destruct (run_ok valid mpr (default :: names) (fun r o H => H) C ops _ (init_inv default names) G1) as (r & E & I).
  destruct (run_ok valid mpr (default :: names) (fun r o H => H) C _ _ (init_inv default names) G0) as (r' & E' & _).
  exists r, r'. split; auto. split; auto. specialize (G2 r E). cbn in G2. destruct G2 as (V & _).
  destruct I as (W & So). rewrite (algs_len _ _ (w_names _ _ W)) in V.
  destruct (alg_add_ok mpr _ r k (conj W So) C V) as (r2 & Ea & _ & ES & EL & _).
  destruct (run_split _ _ _ _ _ E') as (r3 & E3 & St). rewrite E in E3. injection E3 as <-. cbn [step] in St. rewrite Ea in St.
  injection St as <-. auto.
Qed.

Print Assumptions C77_refcount.
Print Assumptions C77_registered_partial.
Print Assumptions C77_two_domains_refuted.
Print Assumptions C77_flooding_refuted.
Print Assumptions C78_configure_partial.
Print Assumptions C78_no_restart_partial.
Print Assumptions C78_any_restart_refuted.
Print Assumptions C78_long_name_refuted.
Print Assumptions C78_late_refuted.
Print Assumptions C78_add_changes_nothing.
