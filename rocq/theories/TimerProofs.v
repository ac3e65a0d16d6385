(** Proofs about the timer scheduler. *)
From Coq Require Import Sorting.Permutation Sorting.Sorted.
From Verif Require Import Base ListModel AvlModel AvlSpec CompModel CompProofs AvlProofs TimerModel TimerSpec.

Lemma upd_same {A} (f : Z -> A) x v : upd f x v x = v.
Proof. unfold upd. now rewrite Z.eqb_refl. Qed.
Lemma upd_other {A} (f : Z -> A) x v y : y <> x -> upd f x v y = f y.
Proof. unfold upd. intros. now rewrite (proj2 (Z.eqb_neq _ _)). Qed.

(** * Firing times *)
Lemma u64_small z : 0 <= z < 18446744073709551616 -> u64 z = z.
Proof. apply Z.mod_small. Qed.
Lemma jitter_share jit r : 0 < jit <= 100 -> 0 <= r < 4294967296 -> 0 <= r / (UINT32_MAX / jit) <= jit.
Proof.
  intros Hj Hr. unfold UINT32_MAX.
  assert (Hd := Z.div_mod 4294967295 jit ltac:(lia)). assert (Hm := Z.mod_pos_bound 4294967295 jit ltac:(lia)).
  set (q := 4294967295 / jit) in *. set (m := 4294967295 mod jit) in *. clearbody q m.
  assert (Hq : 100 < q) by nia.
  split. apply Z.div_pos; lia.
  apply Z.lt_succ_r. apply Z.div_lt_upper_bound; nia.
Qed.
Lemma calc_clock_ok n jit r rel : 0 <= jit <= 100 -> 0 <= r < 4294967296 -> 0 <= n < BIG -> 0 <= rel < BIG ->
  due_ok n jit rel (calc_clock n jit r rel).
Proof.
  intros Hj Hr Hn Hrel.
  assert (Fin : forall x, rel * (100 - jit) / 100 <= x <= rel -> 
     due_ok n jit rel (u64 (u64 (u64 (n + x) + SLICE) - u64 (u64 (n + x) + SLICE) mod SLICE))).
  { intros x Hx. unfold BIG, SLICE in *.
    assert (0 <= rel * (100 - jit) / 100) by (apply Z.div_pos; nia).
    rewrite (u64_small (n + x)) by lia. rewrite (u64_small (n + x + 100)) by lia.
    assert (Hm := Z.mod_pos_bound (n + x + 100) 100 ltac:(lia)).
    assert (Hd := Z.div_mod (n + x + 100) 100 ltac:(lia)).
    rewrite u64_small by lia.
    unfold due_ok, SLICE. split.
    - replace (n + x + 100 - (n + x + 100) mod 100) with ((n + x + 100) / 100 * 100) by lia.
      apply Z.mod_mul. lia.
    - lia. }
  unfold calc_clock. destruct (Z.eqb_spec jit 0) as [->|Nj]; cbn [negb].
  - apply Fin. rewrite Z.sub_0_r, Z.div_mul; lia.
  - cbv zeta. assert (Hs := jitter_share jit r ltac:(lia) Hr).
    set (rj := r / (UINT32_MAX / jit)) in *. clearbody rj. unfold BIG in *.
    rewrite (u64_small (rj * rel)) by nia.
    assert (Hd := Z.div_mod (rj * rel) 100 ltac:(lia)). assert (Hm := Z.mod_pos_bound (rj * rel) 100 ltac:(lia)).
    assert (He := Z.div_mod (rel * (100 - jit)) 100 ltac:(lia)). assert (Hf := Z.mod_pos_bound (rel * (100 - jit)) 100 ltac:(lia)).
    assert (0 <= rj * rel <= 100 * rel) by nia.
    assert (rj * rel <= jit * rel) by nia.
    rewrite (u64_small (rel - rj * rel / 100)) by lia.
    apply Fin. nia.
Qed.
Lemma due_ok_range n jit rel c : 0 <= jit <= 100 -> 0 <= n < BIG -> 0 <= rel < BIG -> due_ok n jit rel c ->
  n < c < 4 * BIG.
Proof.
  unfold due_ok, SLICE, BIG. intros Hj Hn Hr (_ & H1 & H2).
  assert (0 <= rel * (100 - jit) / 100) by (apply Z.div_pos; nia). lia.
Qed.

(** * Trace lemmas *)
Lemma rearm_running l t : rearm_due l t = true -> running l t <> None.
Proof.
  induction l as [|e l IH]; cbn; [discriminate|].
  destruct e; cbn; auto; destruct (Z.eqb_spec t0 t); auto; try discriminate.
  destruct (running l t) as [[c' p]|]; [|discriminate]. destruct (p =? 0); cbn; discriminate.
Qed.

(** * The invariant *)
Definition by_clock (s : tstate) (a b : Z) : Prop := clock s a <= clock s b.

Lemma len_filter_le (f : Z -> bool) l : (length (filter f l) <= length l)%nat.
Proof. induction l as [|x l IH]; cbn; auto. destruct (f x); cbn; lia. Qed.
(** timers due at the given time *)
Definition duelist (s : tstate) : list Z := filter (fun t => clock s t <=? now s) (queue s).
Definition shrinks (s s' : tstate) : Prop :=
  now s' = now s /\ (forall u, In u (duelist s') -> In u (duelist s) /\ clock s' u = clock s u).

Lemma in_due s u : In u (duelist s) <-> In u (queue s) /\ clock s u <= now s.
Proof. unfold duelist. rewrite filter_In, Z.leb_le. tauto. Qed.

Section Proofs.
Context (class_of jitter : Z -> Z) (periodic : Z -> bool) (Hjit : jitter_ok jitter).

Record tcore (s : tstate) : Prop := {
  tc_nd : NoDup (queue s);
  tc_sorted : StronglySorted (by_clock s) (queue s);
  tc_in : forall t, In t (queue s) <-> clock s t <> 0;
  tc_clock : forall t, 0 <= clock s t < 4 * BIG;
  tc_period : forall t, 0 <= period s t < BIG;
  tc_per : forall t, period s t <> 0 -> periodic (class_of t) = true;
  tc_rnd : forall t, 0 <= rnd s t < 4294967296;
  tc_now : 0 <= now s < BIG;
  tc_usage : forall k, usage s k = u32 (zlen (filter (fun t => class_of t =? k) (queue s)))
}.
Record tlog (s : tstate) : Prop := {
  tl_run : forall t, running (log s) t = if clock s t =? 0 then None else Some (clock s t, period s t);
  tl_now : now_of (log s) = now s;
  tl_legal : legal jitter (log s);
  tl_set : settled (log s)
}.
Definition tcb (s : tstate) (t : Z) : Prop :=
  incallback (log s) = Some t /\ incb s (class_of t) = Some t /\
  stopped s (class_of t) = negb (rearm_due (log s) t).

Lemma u32_u32 z k : u32 (u32 z + k) = u32 (z + k).
Proof. unfold u32. now rewrite Zplus_mod_idemp_l. Qed.
Lemma u32_u32s z k : u32 (u32 z - k) = u32 (z - k).
Proof. unfold u32. now rewrite Zminus_mod_idemp_l. Qed.

Lemma ss_ext (R R' : Z -> Z -> Prop) l : (forall a b, In a l -> In b l -> R a b -> R' a b) ->
  StronglySorted R l -> StronglySorted R' l.
Proof.
  induction l as [|x l IH]; intros He Hs. constructor. inversion_clear Hs as [|? ? H1 H2]. constructor.
  - apply IH; auto. intros. apply He; cbn; auto.
  - rewrite Forall_forall in *. intros y Hy. apply He; cbn; auto.
Qed.
Lemma ss_filter (R : Z -> Z -> Prop) f l : StronglySorted R l -> StronglySorted R (filter f l).
Proof.
  induction 1; cbn. constructor. destruct (f a); auto. constructor; auto.
  rewrite Forall_forall in *. intros y Hy. apply filter_In in Hy as [Hy _]. auto.
Qed.
Lemma ss_insert (ck : Z -> Z) n l l' : seq_insert comp_int ck true n l = Some l' ->
  StronglySorted (fun a b => ck a <= ck b) l -> StronglySorted (fun a b => ck a <= ck b) l'.
Proof.
  revert l'. induction l as [|x l IH]; intros l' E Hs; cbn in E.
  - injection E as <-. repeat constructor.
  - inversion_clear Hs as [|? ? H1 H2]. pose proof (comp_int_sign (ck n) (ck x)) as [S1 S2].
    pose proof H2 as H2'. rewrite Forall_forall in H2'.
    destruct (Z.ltb_spec (comp_int (ck n) (ck x)) 0) as [C|C].
    + injection E as <-. constructor. constructor; auto. constructor. lia.
      apply Forall_forall. intros y Hy. specialize (H2' y Hy). cbv beta in H2'. lia.
    + destruct (Z.eqb_spec (comp_int (ck n) (ck x)) 0) as [Q|Q].
      * injection E as <-. assert (ck n = ck x) by lia.
        constructor. constructor; auto.
        apply Forall_forall. intros y Hy. specialize (H2' y Hy). cbv beta in H2'. lia.
        constructor; auto. lia.
      * destruct (seq_insert comp_int ck true n l) as [r|] eqn:Er; [|discriminate].
        cbn in E. injection E as <-. constructor. now apply IH.
        apply (seq_insert_perm comp_int ck true) in Er.
        apply Forall_forall. intros y Hy.
        apply (Permutation_in _ Er) in Hy. destruct Hy as [<-|Hy]. lia. auto.
Qed.
Lemma ins_some (ck : Z -> Z) n l : exists l', seq_insert comp_int ck true n l = Some l'.
Proof.
  induction l as [|x l [l' IH]]; cbn. eauto.
  destruct (_ <? 0); eauto. destruct (_ =? 0); eauto. rewrite IH. cbn. eauto.
Qed.
Lemma len_remove t l : NoDup l -> In t l -> forall f : Z -> bool,
  zlen (filter f l) = zlen (filter f (seq_remove t l)) + (if f t then 1 else 0).
Proof.
  intros ND I f. induction ND as [|x l NI ND IH]; cbn. contradiction.
  destruct I as [->|I].
  - rewrite Z.eqb_refl. cbn [negb]. replace (filter (fun x => negb (x =? t)) l) with l.
    + destruct (f t); unfold zlen; cbn [length]; lia.
    + clear IH ND. induction l as [|y l IH]; cbn; auto. cbn in NI.
      destruct (Z.eqb_spec y t). subst. tauto. cbn. f_equal. apply IH. tauto.
  - destruct (Z.eqb_spec x t) as [->|Nx]. tauto. cbn [negb filter].
    specialize (IH I). unfold seq_remove in IH.
    destruct (f x); unfold zlen in *; cbn [length]; lia.
Qed.
Lemma len_perm (f : Z -> bool) l l' : Permutation l l' -> zlen (filter f l) = zlen (filter f l').
Proof.
  intro Hp. unfold zlen. f_equal. apply Permutation_length.
  induction Hp; cbn; eauto. destruct (f x); auto. destruct (f x), (f y); auto using perm_swap.
  eapply perm_trans; eauto.
Qed.
Lemma in_remove t u l : In u (seq_remove t l) <-> In u l /\ u <> t.
Proof. unfold seq_remove. rewrite filter_In. destruct (Z.eqb_spec u t); cbn; intuition congruence. Qed.

(** ** start *)
Definition same_rest (s s' : tstate) : Prop :=
  now s' = now s /\ incb s' = incb s /\ stopped s' = stopped s /\ log s' = log s.
Lemma start_ok s t first iv : tcore s -> 0 <= first < BIG -> 0 <= iv < BIG ->
  exists s', timer_start class_of jitter periodic s t first iv = Some s' /\ tcore s' /\ same_rest s s' /\
    due_ok (now s) (jitter t) first (clock s' t) /\ clock s' t > now s /\
    (forall u, u <> t -> clock s' u = clock s u /\ period s' u = period s u) /\
    period s' t = (if periodic (class_of t) then iv else 0) /\
    (length (queue s') <= S (length (queue s)))%nat /\
    (forall u, In u (queue s') <-> u = t \/ In u (queue s)).
Proof.
  intros H Hf Hi. unfold timer_start.
  set (s1 := if negb (clock s t =? 0) then _ else _).
  assert (H1 : clock s1 = clock s /\ period s1 = period s /\ rnd s1 = rnd s /\ queue s1 = seq_remove t (queue s) /\
     same_rest s s1 /\ forall k, usage s1 k = u32 (zlen (filter (fun t => class_of t =? k) (queue s1)) + if class_of t =? k then 1 else 0)).
  { subst s1. pose proof (tc_in s H t) as Hin. pose proof (tc_usage s H) as Hu. destruct (Z.eqb_spec (clock s t) 0) as [E|E]; cbn [negb].
    - assert (NI : ~ In t (queue s)) by tauto.
      assert (Er : seq_remove t (queue s) = queue s).
      { clear - NI. unfold seq_remove. induction (queue s) as [|y l IH]; cbn; auto. cbn in NI.
        destruct (Z.eqb_spec y t). subst; tauto. cbn. f_equal. apply IH; tauto. }
      cbn. rewrite Er. unfold same_rest; cbn. repeat split; auto.
      intro k. unfold upd. rewrite (Z.eqb_sym k). destruct (Z.eqb_spec (class_of t) k) as [<-|Nk].
      + rewrite Hu. apply u32_u32.
      + now rewrite Hu, Z.add_0_r.
    - assert (I : In t (queue s)) by tauto. cbn. unfold same_rest; cbn. repeat split; auto.
      intro k. rewrite Hu. f_equal. apply (len_remove t _ (tc_nd s H) I (fun t => class_of t =? k)). }
  clearbody s1. destruct H1 as (C1 & P1 & R1 & Q1 & (N1 & B1 & S1 & L1) & U1).
  set (s2 := if rnd s1 t =? 0 then draw s1 t else s1).
  assert (H2 : clock s2 = clock s /\ period s2 = period s /\ (forall u, 0 <= rnd s2 u < 4294967296) /\ queue s2 = seq_remove t (queue s) /\
     same_rest s s2 /\ usage s2 = usage s1).
  { subst s2. unfold same_rest. destruct (rnd s1 t =? 0).
    - unfold draw. destruct (rands s1) as [|r rs]; cbn; repeat split; auto; unfold upd; destruct (u =? t); try lia;
        rewrite ?R1; try apply (tc_rnd s H); apply Z.mod_pos_bound; lia.
    - repeat split; auto; rewrite R1; apply (tc_rnd s H). }
  clearbody s2. destruct H2 as (C2 & P2 & R2 & Q2 & (N2 & B2 & S2 & L2) & U2).
  rewrite Q1 in U1. cbn [clock queue set_period set_clock period rnd now].
  rewrite C2, N2, Q2.
  set (c := calc_clock _ _ _ _).
  assert (D : due_ok (now s) (jitter t) first c) by (apply calc_clock_ok; auto; apply (tc_now s H)).
  pose proof (due_ok_range _ _ _ _ (Hjit t) (tc_now s H) Hf D) as RC.
  pose proof (tc_now s H) as HN. clearbody c.
  destruct (ins_some (upd (clock s) t c) t (seq_remove t (queue s))) as [q Eq]. rewrite Eq.
  eexists. split; [reflexivity|].
  pose proof (seq_insert_perm comp_int _ true _ _ _ Eq) as PM.
  assert (NDr : NoDup (seq_remove t (queue s))) by (apply NoDup_filter, (tc_nd s H)).
  assert (INQ : forall u, In u q <-> u = t \/ In u (queue s)).
  { intro u. split; intro Hu.
    - apply (Permutation_in _ PM) in Hu. cbn in Hu. rewrite in_remove in Hu. intuition.
    - apply (Permutation_in _ (Permutation_sym PM)). cbn. rewrite in_remove. destruct (Z.eq_dec t u); intuition. }
  split; [|split; [|split; [|split; [|split; [|split; [|split]]]]]]; cbn.
  - constructor; cbn.
    + eapply Permutation_NoDup. apply Permutation_sym, PM. constructor; auto. rewrite in_remove. tauto.
    + unfold by_clock. cbn. rewrite C2.
      eapply ss_insert; [exact Eq|]. eapply ss_ext; [|apply ss_filter, (tc_sorted s H)].
      intros a b Ha Hb Hab. apply in_remove in Ha as [_ Ha], Hb as [_ Hb].
      rewrite !upd_other by auto. exact Hab.
    + rewrite C2. intro u. rewrite INQ. unfold upd. destruct (Z.eqb_spec u t). split; [lia|auto].
      rewrite (tc_in s H). intuition.
    + rewrite C2. intro u. unfold upd. destruct (u =? t). lia. apply (tc_clock s H).
    + rewrite P2. intro u. unfold upd. destruct (u =? t). destruct periodic; unfold BIG in *; lia. apply (tc_period s H).
    + rewrite P2. intro u. unfold upd. destruct (Z.eqb_spec u t) as [->|]. destruct (periodic (class_of t)); congruence. apply (tc_per s H).
    + exact R2.
    + now rewrite N2.
    + intro k. rewrite U2, U1. f_equal. rewrite (len_perm _ _ _ PM). cbn [filter].
      destruct (class_of t =? k); unfold zlen; cbn [length]; lia.
  - unfold same_rest. cbn. auto.
  - now rewrite upd_same.
  - rewrite upd_same. lia.
  - intros u Nu. now rewrite C2, P2, !upd_other by auto.
  - now rewrite upd_same.
  - apply Permutation_length in PM. rewrite PM. cbn. apply le_n_S, len_filter_le.
  - exact INQ.
Qed.

(** ** stop *)
Lemma stop_ok s t : tcore s ->
  tcore (timer_stop class_of s t) /\
  (forall u, clock (timer_stop class_of s t) u = if u =? t then 0 else clock s u) /\
  period (timer_stop class_of s t) = period s /\
  now (timer_stop class_of s t) = now s /\ log (timer_stop class_of s t) = log s /\
  incb (timer_stop class_of s t) = incb s /\
  (forall k, stopped (timer_stop class_of s t) k =
     stopped s k || (negb (clock s t =? 0) && (class_of t =? k) && ptr_eqb (incb s k) (Some t))) /\
  (queue (timer_stop class_of s t) = seq_remove t (queue s)).
Proof.
  intro H. unfold timer_stop. pose proof (tc_in s H t) as Hin. destruct (Z.eqb_spec (clock s t) 0) as [E|E].
  - split; auto. cbn [negb andb]. split; [|repeat split; auto].
    + intro u. destruct (Z.eqb_spec u t); congruence.
    + intro k. now rewrite orb_false_r.
    + assert (NI : ~ In t (queue s)) by tauto. clear - NI. unfold seq_remove.
      induction (queue s) as [|y l IH]; cbn; auto. cbn in NI.
      destruct (Z.eqb_spec y t). subst; tauto. cbn. f_equal. apply IH; tauto.
  - cbv zeta. assert (I : In t (queue s)) by tauto.
    set (s' := set_usage _ _ _).
    assert (C : tcore s').
    { subst s'. constructor; cbn.
      + apply NoDup_filter, (tc_nd s H).
      + eapply ss_ext; [|apply ss_filter, (tc_sorted s H)].
        intros a b Ha Hb Hab. apply in_remove in Ha as [_ Ha], Hb as [_ Hb].
        unfold by_clock in *. cbn. rewrite !upd_other by auto. exact Hab.
      + intro u. rewrite in_remove, (tc_in s H). unfold upd. destruct (Z.eqb_spec u t); intuition.
      + intro u. unfold upd. destruct (u =? t). unfold BIG; lia. apply (tc_clock s H).
      + apply (tc_period s H).
      + apply (tc_per s H).
      + intro u. unfold upd. destruct (u =? t). lia. apply (tc_rnd s H).
      + apply (tc_now s H).
      + intro k. unfold upd. rewrite (Z.eqb_sym k).
        pose proof (len_remove t _ (tc_nd s H) I (fun t => class_of t =? k)) as LR. cbv beta in LR.
        destruct (Z.eqb_spec (class_of t) k) as [Ek|Nk].
        * rewrite Ek, (tc_usage s H), u32_u32s, LR. f_equal. lia.
        * rewrite (tc_usage s H), LR. f_equal. lia. }
    assert (B : incb s' = incb s) by reflexivity.
    rewrite B. destruct (ptr_eqb (incb s (class_of t)) (Some t)) eqn:EB.
    + split. { destruct C. constructor; assumption. }
      subst s'. cbn. repeat split; auto.
      intro k. unfold upd. rewrite (Z.eqb_sym k). destruct (Z.eqb_spec (class_of t) k) as [<-|Nk]; cbn [negb andb].
      now rewrite EB, orb_true_r. now rewrite orb_false_r.
    + split; auto. subst s'. cbn. repeat split; auto.
      intro k. destruct (Z.eqb_spec (class_of t) k) as [<-|Nk]; cbn [negb andb].
      now rewrite EB, orb_false_r. now rewrite orb_false_r.
Qed.

(** ** calls *)
Definition tinv s := tcore s /\ tlog s.
Lemma do_start_ok s t f i : tinv s -> 0 <= f < BIG -> 0 <= i < BIG ->
  exists s' c, do_start class_of jitter periodic s t f i = Some s' /\ tinv s' /\
    log s' = EvStart t c (if periodic (class_of t) then i else 0) f :: log s /\
    now s' = now s /\ incb s' = incb s /\ stopped s' = stopped s /\ c > now s /\ clock s' t = c /\
    (forall u, u <> t -> clock s' u = clock s u) /\
    (forall u, In u (queue s') <-> u = t \/ In u (queue s)).
Proof.
  intros [C L] Hf Hi. unfold do_start.
  destruct (start_ok s t f i C Hf Hi) as (s' & -> & C' & (SN & SB & SS & SL) & D & DN & O & P & _ & INQ).
  exists (push s' (EvStart t (clock s' t) (period s' t) f)), (clock s' t). rewrite <- P. split; [reflexivity|].
  split; [split|].
  - destruct C'; constructor; assumption.
  - destruct L as [LR LN LL LS]. constructor; cbn [log push clock period now].
    + intro u. cbn [running]. rewrite SL. destruct (Z.eqb_spec t u) as [<-|Nu].
      * destruct (Z.eqb_spec (clock s' t) 0); [|reflexivity]. pose proof (tc_now s C). lia.
      * rewrite LR. destruct (O u) as [-> ->]; auto.
    + cbn. now rewrite SL, LN, SN.
    + cbn [legal]. rewrite SL. split; [exact LL|]. split; [|now rewrite LN].
      unfold settled in LS. destruct (log s) as [|[] ?]; auto. intro E. cbn in LS, E. congruence.
    + cbn. auto.
  - cbn. rewrite SL. repeat split; auto. intros u Nu. apply O. auto. apply INQ. apply INQ.
Qed.
Lemma do_stop_ok s t : tinv s ->
  tinv (do_stop class_of s t) /\ now (do_stop class_of s t) = now s /\ incb (do_stop class_of s t) = incb s /\
  (forall u, clock (do_stop class_of s t) u = if u =? t then 0 else clock s u) /\
  queue (do_stop class_of s t) = seq_remove t (queue s) /\
  (forall k, stopped (do_stop class_of s t) k =
     stopped s k || (negb (clock s t =? 0) && (class_of t =? k) && ptr_eqb (incb s k) (Some t))) /\
  log (do_stop class_of s t) = if clock s t =? 0 then log s else EvStop t :: log s.
Proof.
  intros [C L]. unfold do_stop. destruct (stop_ok s t C) as (C' & SC & SP & SN & SL & SB & SS & SQ).
  destruct (Z.eqb_spec (clock s t) 0) as [E|E].
  - unfold timer_stop in *. rewrite (proj2 (Z.eqb_eq _ _) E) in *. split; [split; assumption|repeat split; assumption].
  - cbn. cbn [negb] in SS. rewrite SL. split; [split|].
    + destruct C'; constructor; assumption.
    + destruct L as [LR LN LL LS]. constructor; cbn [log push clock period now].
      * intro u. cbn. rewrite SL, SC, (Z.eqb_sym u). destruct (Z.eqb_spec t u). reflexivity. now rewrite LR, SP.
      * cbn. now rewrite SL, LN, SN.
      * cbn [legal]. rewrite SL. split; [exact LL|]. split.
        -- unfold settled in LS. destruct (log s) as [|[] ?]; auto. intro E'. cbn in LS, E'. congruence.
        -- rewrite LR. destruct (Z.eqb_spec (clock s t) 0); congruence.
      * exact I.
    + repeat split; auto.
Qed.

(** what a call may do while timer [t]'s callback is running, or outside of one *)
Definition cbstate (s : tstate) (o : option Z) : Prop :=
  incallback (log s) = o /\
  match o with
  | Some t => incb s (class_of t) = Some t /\ stopped s (class_of t) = negb (rearm_due (log s) t) /\
              (rearm_due (log s) t = false -> ~ In t (duelist s))
  | None => True
  end.

Lemma do_start_cb s o t f i s' c : tinv s -> cbstate s o -> log s' = EvStart t c (if periodic (class_of t) then i else 0) f :: log s ->
  incb s' = incb s -> stopped s' = stopped s -> shrinks s s' -> cbstate s' o.
Proof.
  intros _ [H1 H2] L B S K. unfold cbstate. rewrite L, B, S. cbn. split; auto.
  destruct o; auto. destruct H2 as (H2 & H3 & H4). split; [|split]; auto.
  intros E Hi. apply K in Hi as [Hi _]. now apply H4.
Qed.
Lemma do_stop_shrinks s t : tinv s -> shrinks s (do_stop class_of s t).
Proof.
  intro H. destruct (do_stop_ok s t H) as (I & SN & SB & SC & SQ & SS & SL).
  split; auto. intros u Hu. apply in_due in Hu as [Hu Hd]. rewrite SQ, in_remove in Hu. destruct Hu as [Hu Nu].
  rewrite SC, (proj2 (Z.eqb_neq u t)) in * by auto. rewrite in_due. rewrite SN in Hd. auto.
Qed.
Lemma do_stop_cb s o t : tinv s -> cbstate s o -> cbstate (do_stop class_of s t) o.
Proof.
  intros [C L] [H1 H2]. pose proof (do_stop_shrinks s t (conj C L)) as [_ K].
  destruct (do_stop_ok s t (conj C L)) as (_ & SN & SB & SC & SQ & SS & SL).
  unfold cbstate. rewrite SL, SB. destruct (Z.eqb_spec (clock s t) 0) as [E|E]; cbn [negb andb] in SS.
  - split; auto. destruct o as [u|]; auto. destruct H2 as (H2 & H3 & H4). split; [|split]; auto.
    + rewrite SS, orb_false_r. auto.
    + intros Er Hi. apply K in Hi as [Hi _]. now apply H4.
  - cbn. split; auto. destruct o as [u|]; auto. destruct H2 as (H2 & H3 & H4). split; [|split]; auto.
    + rewrite SS. rewrite H2, H3. cbn [ptr_eqb]. destruct (Z.eqb_spec t u) as [<-|Nu].
      * rewrite !Z.eqb_refl. cbn. now rewrite orb_true_r.
      * rewrite (proj2 (Z.eqb_neq u t)) by auto. now rewrite andb_false_r, orb_false_r.
    + intros Er Hi. destruct (Z.eqb_spec t u) as [<-|Nu].
      * apply in_due in Hi as [Hi _]. rewrite SQ, in_remove in Hi. tauto.
      * apply K in Hi as [Hi _]. now apply H4.
Qed.

Lemma shrinks_refl s : shrinks s s.
Proof. split; auto. Qed.
Lemma shrinks_trans a b c : shrinks a b -> shrinks b c -> shrinks a c.
Proof.
  intros [N1 H1] [N2 H2]. split. congruence. intros u Hu. destruct (H2 u Hu) as [H3 E3]. destruct (H1 u H3) as [H4 E4].
  split; auto. congruence.
Qed.
(** a step only adds to the log *)
Definition grows (s s' : tstate) : Prop := exists l, log s' = l ++ log s /\ forall t c a, ~ In (EvFire t c a) l.
Lemma grows_refl s : grows s s.
Proof. exists []. split; auto. Qed.
Lemma grows_trans a b c : grows a b -> grows b c -> grows a c.
Proof.
  intros (l & E & H) (l' & E' & H'). exists (l' ++ l). split. now rewrite E', E, app_assoc.
  intros t x b0 Hi. apply in_app_or in Hi as [Hi|Hi]. eapply H'; eauto. eapply H; eauto.
Qed.
Definition steps_ok (s s' : tstate) (o : option Z) : Prop :=
  tinv s' /\ cbstate s' o /\ shrinks s s' /\ grows s s'.

Lemma steps_stop s t o : tinv s -> cbstate s o -> steps_ok s (do_stop class_of s t) o.
Proof.
  intros H HC. destruct (do_stop_ok s t H) as (I & SN & SB & SC & SQ & SS & SL).
  split; [exact I|]. split; [now apply do_stop_cb|]. split; [now apply do_stop_shrinks|].
  destruct (clock s t =? 0); [exists []|exists [EvStop t]]; rewrite SL; (split; [reflexivity|]); intros ? ? ? Hi; cbn in Hi; intuition discriminate.
Qed.
Lemma steps_trans a b c o : steps_ok a b o -> steps_ok b c o -> steps_ok a c o.
Proof.
  intros (_ & _ & S1 & G1) (I & C & S2 & G2). split; [|split; [|split]]; auto.
  eapply shrinks_trans; eauto. eapply grows_trans; eauto.
Qed.
Lemma steps_refl s o : tinv s -> cbstate s o -> steps_ok s s o.
Proof. intros. split; [|split; [|split]]; auto using grows_refl, shrinks_refl. Qed.
Lemma steps_stops l : forall s o, tinv s -> cbstate s o -> steps_ok s (fold_left (do_stop class_of) l s) o.
Proof.
  induction l as [|t l IH]; cbn; intros s o H HC. now apply steps_refl.
  destruct (steps_stop s t o H HC) as (I & C & S & G).
  eapply steps_trans; [|apply IH; eauto]. split; [|split; [|split]]; auto.
Qed.
Lemma steps_start s t f i o : tinv s -> cbstate s o -> 0 <= f < BIG -> 0 <= i < BIG ->
  exists s', do_start class_of jitter periodic s t f i = Some s' /\ steps_ok s s' o.
Proof.
  intros H HC Hf Hi. destruct (do_start_ok s t f i H Hf Hi) as (s' & c & E & I & L & N & B & S & G & K & O & Q).
  assert (SH : shrinks s s').
  { split; auto. intros u Hu. apply in_due in Hu as [Hu Hd]. apply Q in Hu. rewrite N in Hd.
    destruct (Z.eq_dec u t) as [->|Nu]; [lia|]. rewrite O in * by auto. rewrite in_due. intuition. }
  exists s'. split; auto. split; [exact I|]. split; [exact (do_start_cb s o t f i s' c H HC L B S SH)|]. split; [exact SH|].
  exists [EvStart t c (if periodic (class_of t) then i else 0) f]. split; [exact L|].
    intros ? ? ? Hx. cbn in Hx. intuition discriminate.
Qed.
Lemma steps_op s op o : tinv s -> cbstate s o -> op_ok op ->
  exists s', do_op class_of jitter periodic s op = Some s' /\ steps_ok s s' o.
Proof.
  intros H HC Ho. destruct op as [t f i|t f i|t|k]; cbn in Ho |- *.
  - apply steps_start; tauto.
  - destruct (f =? 0). eexists; split; [reflexivity|]. now apply steps_stop. apply steps_start; tauto.
  - eexists; split; [reflexivity|]. now apply steps_stop.
  - eexists; split; [reflexivity|]. now apply steps_stops.
Qed.
Lemma steps_ops l : forall s o, tinv s -> cbstate s o -> Forall op_ok l ->
  exists s', do_ops class_of jitter periodic s l = Some s' /\ steps_ok s s' o.
Proof.
  induction l as [|op l IH]; cbn; intros s o H HC HF.
  - eexists; split; [reflexivity|]. now apply steps_refl.
  - inversion_clear HF as [|? ? F1 F2]. destruct (steps_op s op o H HC F1) as (s1 & -> & S1).
    destruct (IH s1 o) as (s2 & E & S2); try apply S1; auto. exists s2. split; auto. eapply steps_trans; eauto.
Qed.

(** ** one round of the walk *)
Context (cb : list ev -> Z -> list top) (Hcb : forall l t, Forall op_ok (cb l t)).

Lemma draw_core s t : tcore s -> tcore (draw s t).
Proof.
  intro H. unfold draw. destruct (rands s) as [|r rs]; destruct H; constructor; cbn; auto;
    intro u; unfold upd; destruct (u =? t); auto; try lia; apply Z.mod_pos_bound; lia.
Qed.
Lemma draw_rest s t : clock (draw s t) = clock s /\ period (draw s t) = period s /\ queue (draw s t) = queue s /\ same_rest s (draw s t).
Proof. unfold draw, same_rest. destruct (rands s); cbn; auto 10. Qed.

Lemma stop_push s t e : timer_stop class_of (push s e) t = push (timer_stop class_of s t) e.
Proof. unfold timer_stop. cbn. destruct (clock s t =? 0); auto. destruct (ptr_eqb _ _); reflexivity. Qed.
Lemma stop_clock s t : clock (timer_stop class_of s t) t = 0.
Proof. unfold timer_stop. destruct (Z.eqb_spec (clock s t) 0); auto. cbn. destruct (ptr_eqb _ _); cbn; apply upd_same. Qed.
Lemma fire_ok s t r : tinv s -> cbstate s None -> queue s = t :: r -> clock s t <= now s ->
  exists s', fire class_of jitter periodic cb s t = Some s' /\ tinv s' /\ cbstate s' None /\ shrinks s s' /\
    ~ In t (duelist s') /\
    exists l a, log s' = l ++ EvFire t (clock s t) a :: log s /\ forall u c b, ~ In (EvFire u c b) l.
Proof.
  intros [C L] HC EQ HD. unfold fire.
  set (k := class_of t).
  set (s1 := set_stopped (set_incb s k (Some t)) k false).
  assert (NZ : clock s t <> 0). { apply (tc_in s C). rewrite EQ. cbn; auto. }
  pose (a := negb (period s t =? 0)).
  assert (C1 : tcore (push s1 (EvFire t (clock s t) a))) by (destruct C; constructor; assumption).
  cbv zeta. change (clock s1 t) with (clock s t).
  set (s2 := push s1 (EvFire t (clock s t) a)) in *.
  assert (RUN : running (log s) t = Some (clock s t, period s t)).
  { rewrite (tl_run s L). destruct (Z.eqb_spec (clock s t) 0); congruence. }
  (* the log after entering the callback is legal *)
  assert (LEG : legal jitter (EvFire t (clock s t) a :: log s)).
  { cbn [legal]. split; [apply L|]. split.
    - pose proof (tl_set s L) as LS. unfold settled in LS. destruct (log s) as [|[] ?]; auto. intro E'. cbn in LS, E'. congruence.
    - split; [apply HC|]. split; [exists (period s t); split; [exact RUN|reflexivity]|]. split; [now rewrite (tl_now s L)|].
      intros u cu pu Hu. rewrite (tl_run s L) in Hu. destruct (Z.eqb_spec (clock s u) 0) as [|Nz]; [discriminate|].
      injection Hu as <- <-. apply (tc_in s C) in Nz. rewrite EQ in Nz. pose proof (tc_sorted s C) as SS. rewrite EQ in SS.
      inversion_clear SS as [|? ? _ F]. rewrite Forall_forall in F. destruct Nz as [<-|Nz]; [lia|]. now apply F. }
  match goal with |- context [push ?x (EvFire t (clock s t) ?y)] =>
    assert (E3 : push x (EvFire t (clock s t) y) = if period s2 t =? 0 then timer_stop class_of s2 t else s2) end.
  { change (period s1 t) with (period s t). change (period s2 t) with (period s t).
    unfold a in s2 |- *. destruct (Z.eqb_spec (period s t) 0) as [EP|EP].
    - unfold s2. rewrite stop_push. unfold is_active. rewrite stop_clock. reflexivity.
    - unfold s2, is_active. change (clock s1 t) with (clock s t). destruct (Z.eqb_spec (clock s t) 0); [contradiction|]. reflexivity. }
  rewrite E3. clear E3. clearbody a.
  set (s3 := if period s2 t =? 0 then timer_stop class_of s2 t else s2).
  assert (H3 : tinv s3 /\ cbstate s3 (Some t) /\ shrinks s s3 /\ log s3 = EvFire t (clock s t) a :: log s).
  { subst s3. change (period s2 t) with (period s t).
    destruct (Z.eqb_spec (period s t) 0) as [EP|EP].
    - destruct (stop_ok s2 t C1) as (C' & SC & SP & SN & SL & SB & SS & SQ).
      split; [split; [exact C'|]|split; [|split]].
      + constructor.
        * intro u. rewrite SL, SC, SP. subst s2 s1. cbn -[Z.eqb]. rewrite (Z.eqb_sym t u).
          destruct (Z.eqb_spec u t) as [->|Nu]. rewrite RUN, EP. reflexivity. apply (tl_run s L).
        * rewrite SL, SN. apply (tl_now s L).
        * rewrite SL. exact LEG.
        * rewrite SL. exact I.
      + unfold cbstate. rewrite SL, SB. subst s2 s1. cbn -[Z.eqb]. fold k. rewrite upd_same, Z.eqb_refl, RUN, EP. cbn.
        split; auto. split; auto. split; [|intros _ Hi; apply in_due in Hi as [Hi _]; rewrite SQ, in_remove in Hi; tauto].
        rewrite SS. cbn. fold k. rewrite !upd_same, Z.eqb_refl. cbn. rewrite Z.eqb_refl.
        destruct (Z.eqb_spec (clock s t) 0); [contradiction|]. reflexivity.
      + split; [exact SN|]. intros u Hu. apply in_due in Hu as [Hu Hd]. rewrite SQ, in_remove in Hu.
        rewrite SC, SN in *. destruct (Z.eqb_spec u t); [tauto|]. rewrite in_due. tauto.
      + exact SL.
    - split; [split; [exact C1|]|split; [|split]].
      + constructor.
        * intro u. subst s2 s1. cbn -[Z.eqb]. rewrite (Z.eqb_sym t u).
          destruct (Z.eqb_spec u t) as [->|Nu]. rewrite RUN.
          destruct (Z.eqb_spec (period s t) 0), (Z.eqb_spec (clock s t) 0); try contradiction; reflexivity.
          apply (tl_run s L).
        * apply (tl_now s L).
        * exact LEG.
        * exact I.
      + unfold cbstate. subst s2 s1. cbn -[Z.eqb]. fold k. rewrite !upd_same, Z.eqb_refl, RUN.
        destruct (Z.eqb_spec (period s t) 0); [contradiction|]. split; auto. split; auto. split; auto. discriminate.
      + split; auto.
      + reflexivity. }
  clearbody s3. clear C1 LEG. destruct H3 as (I3 & B3 & S3 & L3).
  destruct (steps_ops (cb (log s3) t) s3 (Some t) I3 B3 (Hcb _ _)) as (s4 & -> & I4 & B4 & S4 & l4 & E4 & G4).
  set (s5 := push s4 (EvDone t)).
  assert (L5 : log s5 = (EvDone t :: l4) ++ EvFire t (clock s t) a :: log s).
  { unfold s5. cbn. now rewrite E4, L3. }
  destruct I4 as [C4 L4]. destruct B4 as (B4a & B4b & B4c & B4d). fold k in B4b, B4c.
  assert (C5 : tcore s5) by (destruct C4; constructor; assumption).
  assert (S5 : shrinks s s5). { eapply shrinks_trans; [exact S3|]. exact S4. }
  assert (LEG5 : legal jitter (log s5)).
  { unfold s5. cbn [log push legal]. split; [apply L4|]. split; auto.
    pose proof (tl_set s4 L4) as LS. unfold settled in LS. destruct (log s4) as [|[] ?]; auto. intro E'. cbn in LS, E'. congruence. }
  change (stopped s5 k) with (stopped s4 k). rewrite B4c.
  destruct (rearm_due (log s4) t) eqn:RD; cbn [negb].
  - (* restart *)
    destruct (draw_rest s5 t) as (DC & DP & DQ & DN & DB & DS & DL).
    assert (RN : running (log s4) t = Some (clock s4 t, period s4 t)).
    { pose proof (rearm_running _ _ RD) as Rn. rewrite (tl_run s4 L4) in *. destruct (clock s4 t =? 0); congruence. }
    pose proof (tc_period s4 C4 t) as PB.
    destruct (start_ok (draw s5 t) t (period s4 t) (period s4 t) (draw_core _ _ C5) PB PB)
      as (s6 & E6 & C6 & (N6 & B6 & Sp6 & L6) & D6 & G6 & O6 & P6 & _ & Q6).
    rewrite DP. change (period s5 t) with (period s4 t). rewrite E6.
    assert (PE : period s6 t = period s4 t).
    { rewrite P6. destruct (periodic (class_of t)) eqn:Ep; auto.
      (* not periodic: the period is 0 *)
      destruct (Z.eq_dec (period s4 t) 0) as [->|]; auto.
      pose proof (tc_per s4 C4 t). intuition congruence. }
    exists (push s6 (EvRearm t (clock s6 t) (period s6 t))).
    assert (SH : shrinks s (push s6 (EvRearm t (clock s6 t) (period s6 t))) /\ ~ In t (duelist (push s6 (EvRearm t (clock s6 t) (period s6 t))))).
    { assert (N : now s6 = now s5) by congruence. rewrite DN in G6. split.
      - eapply shrinks_trans; [exact S5|]. split; [exact N|]. intros u Hu. apply in_due in Hu as [Hu Hd].
        cbn [queue clock now push] in Hu, Hd |- *. apply Q6 in Hu. rewrite DQ in Hu. rewrite in_due.
        destruct (Z.eq_dec u t) as [->|Nu]; [lia|]. destruct (O6 u Nu) as [EC _]. rewrite EC, DC in *. intuition; congruence.
      - rewrite in_due. cbn. lia. }
    split; [reflexivity|]. split; [split|split; [|split; [|split]]]; try apply SH.
    + destruct C6; constructor; assumption.
    + rewrite DL in L6. constructor; cbn [log push clock period now].
      * intro u. rewrite L6. unfold s5 at 1. cbn [log push running]. destruct (Z.eqb_spec t u) as [<-|Nu].
        -- pose proof (tc_now s5 C5). rewrite DN in G6. destruct (Z.eqb_spec (clock s6 t) 0); [lia|reflexivity].
        -- destruct (O6 u) as [-> ->]; auto. rewrite DC, DP. apply (tl_run s4 L4).
      * rewrite L6, N6, DN. cbn. apply (tl_now s4 L4).
      * rewrite L6. split; [exact LEG5|]. split.
        -- cbn. intro. eauto.
        -- split; [unfold s5; cbn; eauto|]. split; [exact RD|]. split; [rewrite PE; unfold s5; cbn; eauto|].
           rewrite PE. cbn. rewrite (tl_now s4 L4). rewrite DN in D6. exact D6.
      * exact I.
    + unfold cbstate. cbn. rewrite L6, DL. cbn. auto.
    + exists (EvRearm t (clock s6 t) (period s6 t) :: EvDone t :: l4), a. split.
      * cbn. rewrite L6, DL, L5. reflexivity.
      * intros u c b Hi. cbn in Hi. destruct Hi as [Hi|[Hi|Hi]]; try discriminate. eapply G4; eauto.
  - exists s5. split; [reflexivity|]. split; [split; [exact C5|]|split; [|split; [|split]]].
    + constructor.
      * apply (tl_run s4 L4).
      * apply (tl_now s4 L4).
      * exact LEG5.
      * exact RD.
    + split; reflexivity.
    + exact S5.
    + now apply B4d.
    + exists (EvDone t :: l4), a. split; [exact L5|].
      intros u c b Hi. cbn in Hi. destruct Hi as [Hi|Hi]; try discriminate. eapply G4; eauto.
Qed.

(** ** the walk *)
Definition fires (l : list ev) : list (Z * Z) :=
  flat_map (fun e => match e with EvFire t c _ => [(t, c)] | _ => [] end) l.
Lemma fires_app a b : fires (a ++ b) = fires a ++ fires b.
Proof. apply flat_map_app. Qed.
Lemma fires_none l : (forall t c a, ~ In (EvFire t c a) l) -> fires l = [].
Proof.
  induction l as [|e l IH]; intro H; cbn [fires flat_map]; auto. fold (fires l). rewrite IH.
  - destruct e; auto. exfalso. eapply H. cbn. eauto.
  - intros t c b Hi. eapply H. cbn. eauto.
Qed.
Lemma due_len s s' t : tinv s' -> shrinks s s' -> In t (duelist s) -> ~ In t (duelist s') -> (length (duelist s') < length (duelist s))%nat.
Proof.
  intros [C _] [_ H] I NI.
  assert (ND : NoDup (t :: duelist s')).
  { constructor; auto. apply NoDup_filter, (tc_nd s' C). }
  apply (NoDup_incl_length ND). intros u [<-|Hu]; auto. now apply H.
Qed.
Lemma walk_ok fuel : forall s, tinv s -> cbstate s None -> (length (duelist s) < fuel)%nat ->
  exists s' l, walk_loop class_of jitter periodic cb fuel s = Some s' /\ tinv s' /\ cbstate s' None /\ shrinks s s' /\
    duelist s' = [] /\ log s' = l ++ log s /\
    (forall t c, In (t, c) (fires l) -> In t (duelist s) /\ c = clock s t) /\ NoDup (map fst (fires l)).
Proof.
  induction fuel as [|fuel IH]; intros s H HC Hf; [lia|]. cbn [walk_loop].
  destruct (queue s) as [|t r] eqn:EQ.
  - exists s, [].
    split; [reflexivity|]. split; [assumption|]. split; [assumption|]. split; [apply shrinks_refl|].
    split; [unfold duelist; now rewrite EQ|]. split; [reflexivity|]. split; [cbn; contradiction|constructor].
  - assert (SD : clock s t > now s -> duelist s = []).
    { intro G. destruct H as [C _]. pose proof (tc_sorted s C) as SS. rewrite EQ in SS.
      destruct (duelist s) as [|u d] eqn:ED; auto. exfalso.
      assert (Hu : In u (duelist s)) by (rewrite ED; cbn; auto). apply in_due in Hu as [Hu Hd]. rewrite EQ in Hu.
      inversion_clear SS as [|? ? _ F]. rewrite Forall_forall in F. destruct Hu as [<-|Hu]; [lia|].
      specialize (F u Hu). unfold by_clock in F. lia. }
    destruct (Z.gtb_spec (clock s t) (now s)) as [G|G].
    + exists s, []. specialize (SD ltac:(lia)).
      split; [reflexivity|]. split; [assumption|]. split; [assumption|]. split; [apply shrinks_refl|].
      split; [assumption|]. split; [reflexivity|]. split; [cbn; contradiction|constructor].
    + destruct (fire_ok s t r H HC EQ G) as (s1 & -> & I1 & C1 & S1 & N1 & l1 & a & L1 & G1).
      assert (It : In t (duelist s)). { apply in_due. rewrite EQ. cbn. auto. }
      assert (Hl : (length (duelist s1) < fuel)%nat). { pose proof (due_len s s1 t I1 S1 It N1). lia. }
      destruct (IH s1 I1 C1 Hl) as (s2 & l2 & -> & I2 & C2 & S2 & D2 & L2 & F2 & ND2).
      exists s2, (l2 ++ l1 ++ [EvFire t (clock s t) a]).
      split; [reflexivity|]. split; [assumption|]. split; [assumption|]. split; [eapply shrinks_trans; eauto|].
      split; [assumption|]. split; [rewrite L2, L1; now rewrite <- !app_assoc|].
      assert (EF : fires (l2 ++ l1 ++ [EvFire t (clock s t) a]) = fires l2 ++ [(t, clock s t)]).
      { rewrite !fires_app, (fires_none l1 G1). reflexivity. }
      rewrite EF. split.
      * intros u c Hu. apply in_app_or in Hu as [Hu|[Hu|[]]].
        -- destruct (F2 u c Hu) as [Hd ->]. destruct S1 as [_ S1]. apply S1. auto.
        -- injection Hu as <- <-. auto.
      * rewrite map_app. cbn. apply (Permutation_NoDup (Permutation_cons_append _ _)). constructor; auto.
        intro Hi. apply in_map_iff in Hi as ([u c] & <- & Hu). apply F2 in Hu as [Hu _]. auto.
Qed.

Lemma step_ok' s a : tinv s -> cbstate s None -> act_ok a ->
  exists s', tstep class_of jitter periodic cb s a = Some s' /\ tinv s' /\ cbstate s' None.
Proof.
  intros H HC Ha. destruct a as [o|n|]; cbn in Ha |- *.
  - destruct (steps_op s o None H HC Ha) as (s' & E & I & C & _). eauto.
  - eexists. split; [reflexivity|]. destruct H as [C L]. split; [split|].
    + destruct C; constructor; assumption.
    + destruct L as [LR LN LL LS]. constructor; cbn.
      * exact LR.
      * reflexivity.
      * split; auto. split; [|apply HC].
        unfold settled in LS. destruct (log s) as [|[] ?]; auto. intro E'. cbn in LS, E'. congruence.
      * exact I.
    + split; auto. apply HC.
  - unfold timer_walk. destruct (walk_ok (Datatypes.S (length (queue s))) s H HC) as (s' & l & E & I & C & _).
    { apply le_n_S. apply len_filter_le. }
    eauto.
Qed.
Lemma trun_ok l : forall s, tinv s -> cbstate s None -> Forall act_ok l ->
  exists s', trun class_of jitter periodic cb s l = Some s' /\ tinv s' /\ cbstate s' None.
Proof.
  induction l as [|a l IH]; cbn; intros s H HC HF. eauto.
  inversion_clear HF as [|? ? F1 F2]. destruct (step_ok' s a H HC F1) as (s1 & -> & I1 & C1). auto.
Qed.
Lemma tinit_ok rs : tinv (tinit rs) /\ cbstate (tinit rs) None.
Proof.
  split; [split|].
  - constructor; cbn; try (intros; unfold BIG; lia); try tauto; try constructor; try lia; try discriminate; try (intros; contradiction).
  - constructor; cbn; auto.
  - split; auto.
Qed.

(** ** effect of single calls *)
Lemma stops_clock l : forall s u, tinv s -> clock (fold_left (do_stop class_of) l s) u = if existsb (Z.eqb u) l then 0 else clock s u.
Proof.
  induction l as [|t l IH]; cbn; intros s u H; auto.
  destruct (do_stop_ok s t H) as (I & _ & _ & SC & _). rewrite IH by exact I. rewrite SC.
  destruct (u =? t); cbn; auto. now destruct existsb.
Qed.
Lemma stops_now l : forall s, tinv s -> now (fold_left (do_stop class_of) l s) = now s.
Proof.
  induction l as [|t l IH]; cbn; intros s H; auto.
  destruct (do_stop_ok s t H) as (I & N & _). now rewrite IH.
Qed.
Lemma op_effect s o s' : tinv s -> op_ok o -> do_op class_of jitter periodic s o = Some s' ->
  now s' = now s /\
  forall t, match o with
  | TStart u f _ => if t =? u then is_active s' t = true /\ due_ok (now s) (jitter t) f (clock s' t) else clock s' t = clock s t
  | TSet u f _ => if t =? u then (if f =? 0 then is_active s' t = false else is_active s' t = true /\ due_ok (now s) (jitter t) f (clock s' t))
                  else clock s' t = clock s t
  | TStop u => if t =? u then is_active s' t = false else clock s' t = clock s t
  | TRemove k => if class_of t =? k then is_active s' t = false else clock s' t = clock s t
  end.
Proof.
  intros H Ho E.
  assert (ST : forall u f i, 0 <= f < BIG -> 0 <= i < BIG -> do_start class_of jitter periodic s u f i = Some s' ->
    now s' = now s /\ forall t, if t =? u then is_active s' t = true /\ due_ok (now s) (jitter t) f (clock s' t) else clock s' t = clock s t).
  { intros u f i Hf Hi Es. destruct (do_start_ok s u f i H Hf Hi) as (s1 & c & E1 & I & L & N & _ & _ & G & K & O & _).
    rewrite Es in E1. injection E1 as <-. split; auto. intro t. destruct (Z.eqb_spec t u) as [->|Nt]; auto.
    unfold is_active. rewrite K. destruct H as [C LH]. pose proof (tc_now s C). destruct (Z.eqb_spec c 0); [lia|]. split; auto.
    destruct I as [_ I]. pose proof (tl_legal s' I) as LG. rewrite L in LG. cbn [legal] in LG. destruct LG as (_ & _ & D).
    now rewrite (tl_now s LH) in D. }
  assert (SP : forall u, s' = do_stop class_of s u -> now s' = now s /\ forall t, if t =? u then is_active s' t = false else clock s' t = clock s t).
  { intros u ->. destruct (do_stop_ok s u H) as (_ & N & _ & SC & _). split; auto. intro t. unfold is_active. rewrite SC. now destruct (t =? u). }
  destruct o as [u f i|u f i|u|k]; cbn in Ho, E.
  - now apply (ST u f i).
  - destruct (f =? 0). injection E as E. now apply (SP u). now apply (ST u f i).
  - injection E as E. now apply (SP u).
  - injection E as E. split. { rewrite <- E. now apply stops_now. }
    intro t. assert (K : clock s' t = if existsb (Z.eqb t) (filter (fun t => class_of t =? k) (queue s)) then 0 else clock s t).
    { rewrite <- E. now apply stops_clock. }
    unfold is_active. rewrite K. clear K E ST SP.
    destruct H as [C _]. destruct (existsb (Z.eqb t) _) eqn:X.
    + apply existsb_exists in X as (v & Hv & X). apply Z.eqb_eq in X as <-. apply filter_In in Hv as [_ ->]. reflexivity.
    + destruct (Z.eqb_spec (class_of t) k) as [Ek|]; auto.
      destruct (Z.eqb_spec (clock s t) 0) as [|Nz]; auto. exfalso.
      apply (tc_in s C) in Nz. assert (X' : existsb (Z.eqb t) (filter (fun t => class_of t =? k) (queue s)) = true); [|congruence].
      apply existsb_exists. exists t. rewrite filter_In, Z.eqb_refl, Z.eqb_eq. auto.
Qed.
End Proofs.

(** * Consequences of a legal trace *)
Section Trace.
Context (jitter : Z -> Z).
Definition starts (t : Z) (e : ev) : bool := match e with EvStart u _ _ _ => u =? t | _ => false end.
Definition isfire (t : Z) (e : ev) : bool := match e with EvFire u _ _ => u =? t | _ => false end.
Definition about (t : Z) (e : ev) : bool :=
  match e with EvStart u _ _ _ | EvRearm u _ _ | EvStop u | EvFire u _ _ => u =? t | _ => false end.

Lemma legal_app a b : legal jitter (a ++ b) -> legal jitter b.
Proof. induction a; cbn [app]; auto. intros [H _]. auto. Qed.
Lemma running_skip l L t : (forall e, In e l -> about t e = false) -> running (l ++ L) t = running L t.
Proof.
  induction l as [|e l IH]; cbn [app]; intro H; auto.
  pose proof (H e (or_introl eq_refl)) as He. specialize (IH (fun x Hx => H x (or_intror Hx))).
  destruct e; cbn in *; rewrite ?He; auto.
Qed.
Lemma after_stop l L t : legal jitter (l ++ EvStop t :: L) -> (forall e, In e l -> starts t e = false) ->
  running (l ++ EvStop t :: L) t = None.
Proof.
  induction l as [|e l IH]; cbn [app]; intros LG H.
  - cbn. now rewrite Z.eqb_refl.
  - pose proof (H e (or_introl eq_refl)) as He.
    specialize (IH (proj1 LG) (fun x Hx => H x (or_intror Hx))).
    destruct LG as (_ & _ & LG). destruct e; cbn [running starts] in *; auto.
    + now rewrite He.
    + now destruct (t0 =? t).
    + destruct (t0 =? t); auto. now rewrite IH.
    + destruct (Z.eqb_spec t0 t) as [->|]; auto. destruct LG as (_ & _ & [c' X] & _). congruence.
Qed.
Lemma one_shot l L t c f : legal jitter (l ++ EvStart t c 0 f :: L) -> (forall e, In e l -> starts t e = false) ->
  (exists c', running (l ++ EvStart t c 0 f :: L) t = Some (c', 0) /\ filter (isfire t) l = []) \/
  (running (l ++ EvStart t c 0 f :: L) t = None /\ (length (filter (isfire t) l) <= 1)%nat).
Proof.
  induction l as [|e l IH]; cbn [app]; intros LG H.
  - left. exists c. cbn. now rewrite Z.eqb_refl.
  - pose proof (H e (or_introl eq_refl)) as He.
    specialize (IH (proj1 LG) (fun x Hx => H x (or_intror Hx))).
    destruct LG as (_ & _ & LG). destruct e; cbn [running filter isfire starts] in *; auto.
    + now rewrite He.
    + destruct (t0 =? t); auto. right. split; auto. destruct IH as [(c' & _ & ->)|[_ IH]]; cbn; lia.
    + destruct (Z.eqb_spec t0 t) as [->|]; auto. right.
      destruct IH as [(c' & -> & E)|[E _]].
      * rewrite E. cbn. auto.
      * destruct LG as (_ & (p & X & _) & _). congruence.
    + destruct (Z.eqb_spec t0 t) as [->|]; auto. destruct LG as (_ & _ & [c' X] & _).
      destruct IH as [(c'' & Y & E)|[Y _]]; [|congruence]. rewrite X in Y. injection Y as -> ->. left. eauto.
Qed.
End Trace.
