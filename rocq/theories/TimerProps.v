(** Timer properties (C13, C14). *)
From Coq Require Import Sorting.Permutation Sorting.Sorted.
From Verif Require Import Base ListModel AvlModel AvlSpec CompModel CompProofs AvlProofs TimerModel TimerSpec TimerProofs.

Section Props.
Context (class_of jitter : Z -> Z) (periodic : Z -> bool) (cb : list ev -> Z -> list top).
(** jitter is a percentage, times are below 2^56 ms, also for the calls made by callbacks *)
Definition config_ok : Prop := jitter_ok jitter /\ (forall l t, Forall op_ok (cb l t)).
(** states the program can be in between two calls from the main loop *)
Definition reaches (s : tstate) : Prop :=
  exists rs acts, Forall act_ok acts /\ trun class_of jitter periodic cb (tinit rs) acts = Some s.

Lemma reaches_inv s : config_ok -> reaches s -> tinv class_of jitter periodic s /\ cbstate class_of s None.
Proof.
  intros [HJ HC] (rs & acts & HA & E).
  destruct (tinit_ok class_of jitter periodic cb HC rs) as [I C].
  destruct (trun_ok class_of jitter periodic HJ cb HC acts (tinit rs) I C HA) as (s' & E' & I' & C').
  rewrite E in E'. injection E' as <-. auto.
Qed.

(** C13: no history gets stuck (the walk terminates); the trace obeys the rules of
    TimerSpec: a started timer is due not before the jittered time and at most a
    slice after the requested one, only running timers fire, when due, in order of
    their firing time; the state shows exactly the running timers of the trace. *)
Theorem C13_timers_fire_on_time rs acts : config_ok -> Forall act_ok acts ->
  exists s, trun class_of jitter periodic cb (tinit rs) acts = Some s /\
    legal jitter (log s) /\ settled (log s) /\ now_of (log s) = now s /\
    (forall t, running (log s) t = if is_active s t then Some (clock s t, period s t) else None).
Proof.
  intros [HJ HC] HA. destruct (tinit_ok class_of jitter periodic cb HC rs) as [I C].
  destruct (trun_ok class_of jitter periodic HJ cb HC acts (tinit rs) I C HA) as (s' & E' & [I' [LR LN LL LS]] & C').
  exists s'. split; auto. split; auto. split; auto. split; auto.
  intro t. rewrite LR. unfold is_active. now destruct (clock s' t =? 0).
Qed.

(** C13: a walk fires every timer whose firing time has been reached, unless one of
    the callbacks of this walk stopped or restarted it first; it fires no other timer and none twice. *)
Theorem C13_walk_fires_exactly_the_due_timers s : config_ok -> reaches s ->
  exists s' l, timer_walk class_of jitter periodic cb s = Some s' /\ log s' = l ++ log s /\ now s' = now s /\
    (forall t c, In (t, c) (fires l) -> is_active s t = true /\ c = clock s t /\ c <= now s) /\
    NoDup (map fst (fires l)) /\
    (forall t, is_active s t = true -> clock s t <= now s ->
       In (t, clock s t) (fires l) \/ In (EvStop t) l \/ exists c p f, In (EvStart t c p f) l) /\
    (forall t, is_active s' t = true -> now s' < clock s' t).
Proof.
  intros HC HR. destruct (reaches_inv s HC HR) as [I C]. destruct HC as [HJ HC].
  unfold timer_walk.
  destruct (walk_ok class_of jitter periodic HJ cb HC (S (length (queue s))) s I C) as (s' & l & -> & I' & _ & [N _] & D & L & F & ND).
  { unfold duelist. apply le_n_S, len_filter_le. }
  exists s', l. split; auto. split; auto. split; auto.
  assert (DU : forall t, In t (duelist s) <-> is_active s t = true /\ clock s t <= now s).
  { intro t. rewrite in_due. destruct I as [I _]. rewrite (tc_in _ _ _ I). unfold is_active. destruct (Z.eqb_spec (clock s t) 0); cbn; intuition (congruence || discriminate). }
  assert (DN : forall t, is_active s' t = true -> now s' < clock s' t).
  { intros t Ht. destruct (Z.leb_spec (clock s' t) (now s')); auto. exfalso.
    assert (In t (duelist s')); [|rewrite D in *; contradiction].
    rewrite in_due. destruct I' as [I' _]. rewrite (tc_in _ _ _ I'). unfold is_active in Ht.
    destruct (Z.eqb_spec (clock s' t) 0); [discriminate|]. auto. }
  split; [|split; [|split]]; auto.
  - intros t c Hi. destruct (F t c Hi) as [Hd ->]. apply DU in Hd. tauto.
  - intros t Ha Hd.
    destruct (existsb (about t) l) eqn:X.
    + apply existsb_exists in X as (e & He & Ab). destruct e; cbn in Ab; try discriminate; apply Z.eqb_eq in Ab as ->.
      * right. right. eauto.
      * auto.
      * left. assert (Hf : In (t, c) (fires l)). { apply in_flat_map. exists (EvFire t c active). cbn. auto. }
        destruct (F t c Hf) as [_ ->]. exact Hf.
      * (* a restart follows a callback of this walk *)
        destruct I' as [_ I']. pose proof (tl_legal _ _ I') as LG. rewrite L in LG.
        apply in_split in He as (l1 & l2 & ->). rewrite <- app_assoc in LG. apply legal_app in LG. cbn [app] in LG.
        destruct LG as (LG & _ & (l' & E') & RD & _).
        destruct l2 as [|e2 l2].
        -- exfalso. cbn [app] in E', RD. destruct I as [_ I]. pose proof (tl_set _ _ I) as SE. rewrite E' in SE, RD. cbn in SE, RD. congruence.
        -- cbn [app] in E'. injection E' as -> E'. cbn [app legal] in LG. destruct LG as (_ & _ & IC).
           assert (exists c a, In (EvFire t c a) l2) as (c' & a & Hf).
           { destruct C as [C _]. clear - IC C. induction l2 as [|e l2 IH]; cbn [app] in IC. congruence.
             destruct e; cbn in IC |- *; try (destruct (IH IC) as (? & ? & ?); eauto; fail); try discriminate.
             injection IC as ->. eauto. }
           left. assert (Hf' : In (t, c') (fires (l1 ++ EvRearm t c p :: EvDone t :: l2))).
           { apply in_flat_map. exists (EvFire t c' a). split; [|cbn; auto]. apply in_or_app. cbn. auto. }
           destruct (F t c' Hf') as [_ ->]. exact Hf'.
    + left. exfalso. assert (running (log s') t = running (log s) t).
      { rewrite L. apply running_skip. intros e He. destruct (about t e) eqn:Ab; auto.
        assert (existsb (about t) l = true) by (apply existsb_exists; eauto). congruence. }
      destruct I as [_ I], I' as [I2 I']. rewrite (tl_run _ _ I), (tl_run _ _ I') in H. unfold is_active in *.
      destruct (Z.eqb_spec (clock s t) 0); [discriminate|].
      specialize (DN t). destruct (Z.eqb_spec (clock s' t) 0); [discriminate|]. injection H as E1 E2.
      specialize (DN eq_refl). lia.
Qed.

(** C13: the next event is the earliest firing time of all running timers *)
Theorem C13_next_event_is_earliest s : config_ok -> reaches s ->
  (forall t, is_active s t = true -> next_event s <= clock s t) /\
  ((exists t, is_active s t = true /\ clock s t = next_event s) \/
   ((forall t, is_active s t = false) /\ next_event s = UINT64_MAX)).
Proof.
  intros HC HR. destruct (reaches_inv s HC HR) as [[I _] _]. unfold next_event.
  assert (A : forall t, is_active s t = true <-> In t (queue s)).
  { intro t. rewrite (tc_in _ _ _ I). unfold is_active. destruct (Z.eqb_spec (clock s t) 0); cbn; intuition (congruence || discriminate). }
  pose proof (tc_sorted _ _ _ I) as SS. destruct (queue s) as [|t q].
  - split. intros u Hu. apply A in Hu. contradiction. right. split; auto. intro u. destruct (is_active s u) eqn:E; auto. apply A in E. contradiction.
  - inversion_clear SS as [|? ? _ F]. rewrite Forall_forall in F. split.
    + intros u Hu. apply A in Hu as [<-|Hu]. lia. now apply F.
    + left. exists t. split; auto. apply A. cbn. auto.
Qed.

(** C14: a timer that was stopped fires only after it was started again *)
Theorem C14_stopped_timer_does_not_fire s l1 l2 l3 t c a : config_ok -> reaches s ->
  log s = l1 ++ EvFire t c a :: l2 ++ EvStop t :: l3 -> exists c' p f, In (EvStart t c' p f) l2.
Proof.
  intros HC HR E. destruct (reaches_inv s HC HR) as [[_ I] _]. pose proof (tl_legal _ _ I) as LG. rewrite E in LG.
  apply legal_app in LG. destruct LG as (LG & _ & _ & (p & R & _) & _).
  destruct (existsb (starts t) l2) eqn:X.
  - apply existsb_exists in X as (e & He & Hs). destruct e; try discriminate. apply Z.eqb_eq in Hs as ->. eauto.
  - rewrite after_stop with (jitter := jitter) in R; auto. discriminate.
    intros e He. destruct (starts t e) eqn:Y; auto. assert (existsb (starts t) l2 = true) by (apply existsb_exists; eauto). congruence.
Qed.

(** C14: a timer without period fires at most once after it was started *)
Theorem C14_one_shot_fires_once_per_start s l1 l2 l3 t c f : config_ok -> reaches s ->
  log s = l1 ++ l2 ++ EvStart t c 0 f :: l3 -> (forall e, In e l2 -> starts t e = false) ->
  (length (filter (isfire t) l2) <= 1)%nat.
Proof.
  intros HC HR E HS. destruct (reaches_inv s HC HR) as [[_ I] _]. pose proof (tl_legal _ _ I) as LG. rewrite E in LG.
  apply legal_app in LG. destruct (one_shot jitter l2 l3 t c f LG HS) as [(_ & _ & ->)|[_ H]]; cbn; lia.
Qed.

(** C14: a timer without period is not active when its callback runs, one with a period is *)
Theorem C14_active_in_callback_iff_periodic s l1 l2 t c a : config_ok -> reaches s ->
  log s = l1 ++ EvFire t c a :: l2 -> exists p, running l2 t = Some (c, p) /\ a = negb (p =? 0).
Proof.
  intros HC HR E. destruct (reaches_inv s HC HR) as [[_ I] _]. pose proof (tl_legal _ _ I) as LG. rewrite E in LG.
  apply legal_app in LG. apply LG.
Qed.

(** C14: after a callback has returned, its timer is restarted with its period
    exactly if it had a period when it fired and the callback did not stop it *)
Theorem C14_rearmed_iff_periodic_and_not_stopped s l1 l2 l3 t c a : config_ok -> reaches s ->
  log s = l1 ++ EvDone t :: l2 ++ EvFire t c a :: l3 -> (forall u, ~ In (EvDone u) l2) ->
  (a = true /\ ~ In (EvStop t) l2) <-> (exists l c' p, l1 = l ++ [EvRearm t c' p]).
Proof.
  intros HC HR E HD. destruct (reaches_inv s HC HR) as [[_ I] _].
  pose proof (tl_legal _ _ I) as LG. pose proof (tl_set _ _ I) as SE.
  rewrite E in LG, SE.
  pose proof (legal_app _ _ _ LG) as LG2.
  assert (RD : rearm_due (EvDone t :: l2 ++ EvFire t c a :: l3) t = true <-> a = true /\ ~ In (EvStop t) l2).
  { cbn [rearm_due]. destruct LG2 as (LG2 & _ & _). clear - LG2 HD. 
    assert (NR : forall u c p, ~ In (EvRearm u c p) l2).
    { intros u cu pu Hi. apply in_split in Hi as (x & y & ->). rewrite <- app_assoc in LG2. apply legal_app in LG2. cbn [app] in LG2.
      destruct LG2 as (LG2 & _ & (l' & El) & _). destruct y as [|e y]; cbn [app] in El.
      - discriminate.
      - injection El as -> _. apply (HD u). apply in_or_app. cbn. auto. }
    induction l2 as [|e l2 IH]; cbn [app rearm_due].
    - rewrite Z.eqb_refl. destruct LG2 as (_ & _ & _ & (p & -> & ->) & _). cbn. intuition.
    - specialize (IH (fun u Hi => HD u (or_intror Hi)) (proj1 LG2) (fun u c p Hi => NR u c p (or_intror Hi))).
      pose proof LG2 as (LL & _ & LG). destruct e; cbn [In]; try (rewrite IH; intuition discriminate).
      + destruct (Z.eqb_spec t0 t) as [->|Nt]. split; [discriminate|tauto]. rewrite IH. intuition congruence.
      + (* two callbacks cannot be open at once *)
        exfalso. destruct LG as [IC _]. 
        assert (HD' : forall u, ~ In (EvDone u) l2) by (intros u Hi; apply (HD u); cbn; auto). clear - IC HD'.
        induction l2 as [|e l2 IH]; cbn in IC. discriminate.
        destruct e; cbn in IC; try discriminate; try (apply IH; auto; intros u Hi; apply (HD' u); cbn; auto; fail).
        eapply HD'. cbn. eauto.
      + exfalso. eapply NR. cbn. eauto. }
  rewrite <- RD. destruct (rearm_due (EvDone t :: l2 ++ EvFire t c a :: l3) t) eqn:ER.
  - split; auto. intros _. induction l1 as [|e l _] using rev_ind.
    + exfalso. cbn [app] in SE. cbn in SE, ER. congruence.
    + rewrite <- app_assoc in LG. apply legal_app in LG. cbn [app] in LG. destruct LG as (_ & LG & _).
      destruct (LG ER) as (c' & p & ->). eauto.
  - split; [discriminate|]. intros (l & c' & p & ->). exfalso. rewrite <- app_assoc in LG. apply legal_app in LG.
    cbn [app] in LG. destruct LG as (_ & _ & _ & LG & _). congruence.
Qed.

(** C14: effect of the calls on the set of active timers and their firing times *)
Theorem C14_effect_of_calls s o s' : config_ok -> reaches s -> op_ok o ->
  do_op class_of jitter periodic s o = Some s' ->
  now s' = now s /\
  forall t, match o with
  | TStart u f _ => if t =? u then is_active s' t = true /\ due_ok (now s) (jitter t) f (clock s' t) else clock s' t = clock s t
  | TSet u f _ => if t =? u then (if f =? 0 then is_active s' t = false else is_active s' t = true /\ due_ok (now s) (jitter t) f (clock s' t))
                  else clock s' t = clock s t
  | TStop u => if t =? u then is_active s' t = false else clock s' t = clock s t
  | TRemove k => if class_of t =? k then is_active s' t = false else clock s' t = clock s t
  end.
Proof.
  intros HC HR Ho E. destruct (reaches_inv s HC HR) as [I _]. destruct HC as [HJ HC]. exact (op_effect class_of jitter periodic HJ cb HC s o s' I Ho E).
Qed.

(** C14: the usage counter of a class is the number of its active timers *)
Theorem C14_usage_counts_active_timers s k : config_ok -> reaches s ->
  exists l, NoDup l /\ (forall t, In t l <-> is_active s t = true /\ class_of t = k) /\ usage s k = u32 (zlen l).
Proof.
  intros HC HR. destruct (reaches_inv s HC HR) as [[I _] _].
  exists (filter (fun t => class_of t =? k) (queue s)). split; [|split].
  - apply NoDup_filter, (tc_nd _ _ _ I).
  - intro t. rewrite filter_In, (tc_in _ _ _ I), Z.eqb_eq. unfold is_active. destruct (Z.eqb_spec (clock s t) 0); cbn; intuition (congruence || discriminate).
  - apply (tc_usage _ _ _ I).
Qed.
End Props.


(** ** Finding: a periodic timer restarted from its own callback

    When the callback of a periodic timer calls oonf_timer_set(_ext)/oonf_timer_start_ext
    for its own timer, the requested first time is lost: the walk restarts the
    timer with the period right after the callback (oonf_timer.c:291-301), so the
    callback's request for a first time is not honoured. *)
Definition cb_self : list ev -> Z -> list top := fun _ t => [TStart t 5000 1000].
Theorem C14_restart_from_own_callback_refuted :
  exists class_of jitter periodic cb s l c c' p f t,
    config_ok jitter cb /\ reaches class_of jitter periodic cb s /\
    log s = EvRearm t c' p :: EvDone t :: EvStart t c p f :: l /\
    clock s t = c' /\ c' < now s + f.
Proof.
  exists (fun _ => 0), (fun _ => 0), (fun _ => true), cb_self.
  eexists. eexists _, _, _, _, _, 1. split.
  { split. intro. lia. intros l t. unfold cb_self. repeat constructor; unfold BIG; lia. }
  split.
  { exists [], [TNow 1000; TOp (TStart 1 1000 1000); TNow 2100; TWalk]. split.
    - repeat constructor; unfold BIG; lia.
    - vm_compute. reflexivity. }
  split; [reflexivity|]. split; vm_compute; reflexivity.
Qed.

(** ** Finding: a jitter above 100 percent *)
Theorem C13_jitter_above_100_refuted :
  exists n jit r rel, 0 <= n < BIG /\ 0 <= rel < BIG /\ 0 <= r < 4294967296 /\ 0 <= jit < 256 /\
    calc_clock n jit r rel < n.
Proof. exists 100000, 200, 4294967295, 5000. vm_compute. repeat split; discriminate || reflexivity. Qed.

(** ** A history: timer 1 periodic (class 7) with jitter, timers 2 and 3 one-shot
    (class 8); the callback of 1 stops 2, the callback of 3 starts 2 again *)
Definition ex_class (t : Z) : Z := if t =? 1 then 7 else 8.
Definition ex_jitter (t : Z) : Z := if t =? 1 then 25 else 0.
Definition ex_periodic (k : Z) : bool := k =? 7.
Definition ex_cb (l : list ev) (t : Z) : list top :=
  if t =? 1 then [TStop 2] else if t =? 3 then [TSet 2 300 0] else [].
Definition ex_acts : list tact :=
  [TNow 50; TOp (TStart 1 1000 1000); TOp (TStart 2 1400 0); TOp (TStart 3 900 5); TNow 1200; TWalk; TNow 1600; TWalk;
   TOp (TRemove 8); TNow 1700; TWalk].
Example C13_ex : config_ok ex_jitter ex_cb /\ Forall act_ok ex_acts /\
  option_map (fun s => (rev (log s), next_event s, usage s 7, usage s 8)) (trun ex_class ex_jitter ex_periodic ex_cb (tinit [3000000000; 7; 9; 11]) ex_acts) =
  Some ([EvNow 50; EvStart 1 900 1000 1000; EvStart 2 1500 0 1400; EvStart 3 1000 0 900; EvNow 1200;
         EvFire 1 900 true; EvStop 2; EvDone 1; EvRearm 1 2300 1000;
         EvFire 3 1000 false; EvStart 2 1600 0 300; EvDone 3;
         EvNow 1600; EvFire 2 1600 false; EvDone 2; EvNow 1700], 2300, 1, 0).
Proof.
  split; [split|split].
  - intro t. unfold ex_jitter. destruct (t =? 1); lia.
  - intros l t. unfold ex_cb. destruct (t =? 1); [|destruct (t =? 3)]; repeat constructor; unfold BIG; lia.
  - repeat constructor; unfold BIG; lia.
  - vm_compute. reflexivity.
Qed.

(** the hypotheses of the C14 theorems hold in this history *)
Example C14_ex : exists s l1 l2 l3,
  reaches ex_class ex_jitter ex_periodic ex_cb s /\
  log s = l1 ++ EvFire 2 1600 false :: l2 ++ EvStop 2 :: l3 /\
  (exists k1 k2 k3, log s = k1 ++ EvDone 1 :: k2 ++ EvFire 1 900 true :: k3 /\ (forall u, ~ In (EvDone u) k2)).
Proof.
  assert (exists s, trun ex_class ex_jitter ex_periodic ex_cb (tinit [3000000000; 7; 9; 11]) ex_acts = Some s /\
    log s = rev [EvNow 50; EvStart 1 900 1000 1000; EvStart 2 1500 0 1400; EvStart 3 1000 0 900; EvNow 1200;
         EvFire 1 900 true; EvStop 2; EvDone 1; EvRearm 1 2300 1000;
         EvFire 3 1000 false; EvStart 2 1600 0 300; EvDone 3;
         EvNow 1600; EvFire 2 1600 false; EvDone 2; EvNow 1700]) as (s & E & L).
  { eexists. split; vm_compute; reflexivity. }
  exists s, [EvNow 1700; EvDone 2], [EvNow 1600; EvDone 3; EvStart 2 1600 0 300; EvFire 3 1000 false; EvRearm 1 2300 1000; EvDone 1],
    [EvFire 1 900 true; EvNow 1200; EvStart 3 1000 0 900; EvStart 2 1500 0 1400; EvStart 1 900 1000 1000; EvNow 50].
  split; [|split].
  - exists [3000000000; 7; 9; 11], ex_acts. split; [apply C13_ex|exact E].
  - exact L.
  - exists [EvNow 1700; EvDone 2; EvFire 2 1600 false; EvNow 1600; EvDone 3; EvStart 2 1600 0 300; EvFire 3 1000 false; EvRearm 1 2300 1000],
      [EvStop 2], [EvNow 1200; EvStart 3 1000 0 900; EvStart 2 1500 0 1400; EvStart 1 900 1000 1000; EvNow 50].
    split; [exact L|]. intros u [Hi|[]]. discriminate.
Qed.

Print Assumptions C13_timers_fire_on_time.
Print Assumptions C13_walk_fires_exactly_the_due_timers.
Print Assumptions C13_next_event_is_earliest.
Print Assumptions C14_stopped_timer_does_not_fire.
Print Assumptions C14_one_shot_fires_once_per_start.
Print Assumptions C14_active_in_callback_iff_periodic.
Print Assumptions C14_rearmed_iff_periodic_and_not_stopped.
Print Assumptions C14_effect_of_calls.
Print Assumptions C14_usage_counts_active_timers.
Print Assumptions C14_restart_from_own_callback_refuted.
