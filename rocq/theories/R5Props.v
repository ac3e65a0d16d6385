(** Properties of RFC 5444 interfaces and targets: C152 to C156. *)
From Verif Require Import Base BufLemmas R5Model R5Spec.

Ltac bnd H := match type of H with rbind ?a _ = Ok _ => let E := fresh "E" in destruct a eqn:E; cbn [rbind] in H; [|discriminate H] end.

(** ** What the calls leave alone *)
Record calm (s s' : st) : Prop := { ca_seq : s_seq s' = s_seq s; ca_need : s_need s' = s_need s; ca_now : s_now s' = s_now s;
  ca_fixed : s_fixed s' = s_fixed s; ca_next : s_next s <= s_next s' }.
Lemma calm_refl s : calm s s.
Proof. split; reflexivity. Qed.
Lemma calm_trans a b c : calm a b -> calm b c -> calm a c.
Proof. intros [] []. split; try congruence. lia. Qed.
Lemma calm_set_ifs s x : calm s (set_ifs s x). Proof. split; reflexivity. Qed.
Lemma calm_set_ts s x : calm s (set_ts s x). Proof. split; reflexivity. Qed.
Lemma calm_set_lis s x : calm s (set_lis s x). Proof. split; reflexivity. Qed.
Lemma calm_set_port s x : calm s (set_port s x). Proof. split; reflexivity. Qed.
Lemma calm_upd_if i f s : calm s (upd_if i f s). Proof. split; reflexivity. Qed.
Lemma calm_upd_t i f s : calm s (upd_t i f s). Proof. split; reflexivity. Qed.
Lemma calm_create s i d k : calm s (create_target s i d k). Proof. split; try reflexivity. cbn. lia. Qed.
Lemma calm_renew s i k a : calm s (renew s i k a).
Proof. unfold renew. destruct a; [|apply calm_set_ts]. eapply calm_trans; [apply calm_set_ts|apply calm_create]. Qed.
Lemma notify_same s i s' : notify s i = Ok s' -> s' = s.
Proof. unfold notify. intro H. repeat bnd H. congruence. Qed.
Lemma calm_remove_interface s i s' : remove_interface s i = Ok s' -> calm s s'.
Proof.
  unfold remove_interface. intro H. bnd H. injection H as <-. destruct (i_ref a >? 1); [apply calm_upd_if|].
  eapply calm_trans; [apply calm_set_ts|apply calm_set_ifs].
Qed.
Lemma calm_add_target s i d r : add_target s i d = Ok r -> calm s (fst r).
Proof.
  unfold add_target. intro H. bnd H. destruct (find _ _); injection H as <-; simpl; [apply calm_upd_if|].
  eapply calm_trans; [apply calm_create|apply calm_upd_if].
Qed.
Lemma calm_remove_target s t s' : remove_target s t = Ok s' -> calm s s'.
Proof.
  unfold remove_target. intro H. bnd H. bnd H. destruct (t_ref a >? 1); [injection H as <-; apply calm_upd_t|].
  bnd H. apply calm_remove_interface in E1. unfold destroy_target in H. bnd H. injection H as <-.
  eapply calm_trans; [apply calm_set_ts|]. eapply calm_trans; [exact E1|apply calm_set_ts].
Qed.
Lemma calm_reapply s i s' : reapply s i = Ok s' -> calm s s'.
Proof.
  unfold reapply. intro H. bnd H. set (s1 := upd_if i (settle s) s) in *.
  assert (C : calm s s1) by apply calm_upd_if. destruct (s_port s1 =? 0); [injection H as <-; exact C|].
  bnd H. apply notify_same in E0. subst. bnd H. injection H as <-.
  eapply calm_trans; [exact C|]. eapply calm_trans; apply calm_renew.
Qed.
Lemma calm_changed s i ch s' : changed s i ch = Ok s' -> calm s s'.
Proof.
  unfold changed. intro H. bnd H. apply notify_same in H. subst. destruct ch; [apply (calm_reapply _ _ _ E)|].
  injection E as <-. apply calm_refl.
Qed.
Lemma calm_reconfigure s i c ch s' : reconfigure s i c ch = Ok s' -> calm s s'.
Proof.
  unfold reconfigure. intro H. bnd H. set (s0 := match c with Some c => upd_if i (take c) s | None => s end) in *.
  assert (C0 : calm s s0) by (unfold s0; destruct c; [apply calm_upd_if|apply calm_refl]).
  set (s1 := upd_if i (settle s0) s0) in *. assert (C : calm s s1) by (eapply calm_trans; [exact C0|apply calm_upd_if]).
  destruct (s_port s1 =? 0); [injection H as <-; exact C|].
  bnd H. apply calm_changed in E0. bnd H. injection H as <-.
  eapply calm_trans; [exact C|]. eapply calm_trans; [exact E0|]. eapply calm_trans; apply calm_renew.
Qed.
Lemma calm_reconf_all ch is : forall s s', reconf_all s is ch = Ok s' -> calm s s'.
Proof.
  induction is as [|i r IH]; intros s s' H; [injection H as <-; apply calm_refl|]. simpl in H. bnd H.
  eapply calm_trans; [apply (calm_reconfigure _ _ _ _ _ E)|apply (IH _ _ H)].
Qed.
Lemma calm_protocol s p ch s' : reconfigure_protocol s p ch = Ok s' -> calm s s'.
Proof.
  unfold reconfigure_protocol. intro H. destruct (p =? s_port s); [injection H as <-; apply calm_refl|].
  destruct (p =? 0); [injection H as <-; apply calm_set_port|]. eapply calm_trans; [apply calm_set_port|apply (calm_reconf_all _ _ _ _ H)].
Qed.
Lemma on_target_eq s t f r : on_target s t f = Ok r ->
  exists y, find_t s t = Some y /\ fst r = upd_t t (fun y => fst (f y)) s /\ snd r = map Sent (snd (f y)).
Proof.
  unfold on_target, get_t. intro H. destruct (find_t s t) as [y|] eqn:F; [|discriminate H]. simpl in H. bnd H. injection H as <-.
  exists y. repeat split; reflexivity.
Qed.

(** ** C156: message sequence numbers *)
Definition makes_if (o : op) : bool := match o with AddIf _ _ | Section false _ _ _ => true | _ => false end.
Lemma msg_seqs_app a b : msg_seqs (a ++ b) = msg_seqs a ++ msg_seqs b.
Proof. apply flat_map_app. Qed.
Lemma msg_seqs_sent l : msg_seqs (map Sent l) = [].
Proof. induction l; [reflexivity|exact IHl]. Qed.
Lemma step_seq s o r : makes_if o = false -> step s o = Ok r ->
  (o = MsgSeq /\ s_seq (fst r) = u16 (s_seq s + 1) /\ msg_seqs (snd r) = [s_seq (fst r)]) \/
  (o <> MsgSeq /\ s_seq (fst r) = s_seq s /\ msg_seqs (snd r) = []).
Proof.
  intros N H.
  assert (R : forall x, ret x = Ok r -> (forall s', x = Ok s' -> calm s s') -> s_seq (fst r) = s_seq s /\ msg_seqs (snd r) = []).
  { intros x E C. unfold ret in E. destruct x; [|discriminate E]. simpl in E. injection E as <-. split; [apply (C _ eq_refl)|reflexivity]. }
  assert (T : forall t f, on_target s t f = Ok r -> s_seq (fst r) = s_seq s /\ msg_seqs (snd r) = []).
  { intros t f E. destruct (on_target_eq _ _ _ _ E) as [y [_ [E1 E2]]]. rewrite E1, E2. split; [reflexivity|apply msg_seqs_sent]. }
  destruct o; simpl in N, H; try discriminate N; try (right; split; [discriminate|]).
  - apply (R _ H). intros s' E. bnd E. injection E as <-. apply calm_remove_interface in E0.
    destruct l; [|exact E0]. eapply calm_trans; [exact E0|apply calm_set_lis].
  - bnd H. injection H as <-. split; [apply (calm_add_target _ _ _ _ E)|reflexivity].
  - apply (R _ H). intros s' E. apply (calm_remove_target _ _ _ E).
  - apply (R _ H). intros s' E. apply (calm_reconfigure _ _ _ _ _ E).
  - apply (R _ H). intros s' E. destruct pre; [|discriminate N]. unfold section_set in E. bnd E. injection E as <-.
    apply calm_reconfigure in E0. simpl in E0. eapply calm_trans; [exact E0|apply calm_upd_if].
  - apply (R _ H). intros s' E. unfold section_gone in E. bnd E. discriminate E.
  - apply (R _ H). intros s' E. apply (calm_changed _ _ _ _ E).
  - apply (R _ H). intros s' E. apply (calm_protocol _ _ _ _ E).
  - apply (R _ H). intros s' E. bnd E. injection E as <-. apply calm_upd_if.
  - bnd H. bnd H. apply (T _ _ H).
  - apply (T _ _ H).
  - destruct (find_t s t) as [y|]; [|injection H as <-; split; reflexivity].
    destruct (t_timer y); [|injection H as <-; split; reflexivity].
    destruct (s_now s <? z); [injection H as <-; split; reflexivity|]. apply (T _ _ H).
  - injection H as <-. split; reflexivity.
  - left. injection H as <-. repeat split; reflexivity.
  - injection H as <-. split; reflexivity.
  - apply (R _ H). intros s' E. bnd E. injection E as <-. apply calm_upd_t.
Qed.
(** the numbers that the users of a protocol draw for their messages follow each other, from any
    state on and whatever else happens; missing: histories in which an interface is added *)
Theorem C156_message_numbers_partial s ops r : forallb (fun o => negb (makes_if o)) ops = true -> run s ops = Ok r ->
  consecutive (msg_seqs (snd r)) /\ forall q l, msg_seqs (snd r) = q :: l -> q = (s_seq s + 1) mod 65536.
Proof.
  revert s r. induction ops as [|o ops IH]; intros s r N H; simpl in N, H.
  - injection H as <-. split; [exact Logic.I|discriminate].
  - apply andb_prop in N as [N1 N2]. apply negb_true_iff in N1. bnd H. bnd H. injection H as <-. simpl.
    destruct (IH _ _ N2 E0) as [C F]. rewrite msg_seqs_app.
    destruct (step_seq _ _ _ N1 E) as [[_ [E1 E2]]|[_ [E1 E2]]]; rewrite E2; simpl.
    + split.
      * destruct (msg_seqs (snd a0)) as [|q l] eqn:M; [exact Logic.I|]. split; [apply (F _ _ eq_refl)|exact C].
      * intros q l [= <- _]. exact E1.
    + split; [exact C|]. rewrite <- E1. exact F.
Qed.
(** an interface that is added later makes the numbers jump, also backwards *)
Theorem C156_added_interface_refuted : exists rnd ops r, run (init true rnd) ops = Ok r /\
  ~ consecutive (msg_seqs (snd r)) /\ msg_seqs (snd r) = [5001; 5002; 1001].
Proof.
  exists (fun i => if i =? 1 then 5000 else 1000), [AddIf None 1; MsgSeq; MsgSeq; AddIf None 2; MsgSeq].
  eexists. split; [vm_compute; reflexivity|]. split; [|reflexivity].
  intros [_ [H _]]. vm_compute in H. discriminate H.
Qed.
Example C156_ex : exists r, run (init true (fun _ => 65534)) [AddIf None 1; AddTgt 1 7; MsgSeq; Msg 2 3 false; MsgSeq; Event 1 true; MsgSeq] = Ok r /\
  msg_seqs (snd r) = [65535; 0; 1].
Proof. eexists. split; vm_compute; reflexivity. Qed.

(** ** C152: references *)
Ltac fair_tac := vm_compute; repeat match goal with
  | |- _ /\ _ => split | |- True => exact Logic.I | |- False -> False => intros [] | |- exists _, _ => eexists
  | |- _ \/ _ => first [left; reflexivity | right] | |- _ = _ => reflexivity end.
Theorem C152_shared_target_refuted : exists ops, fair (init true (fun _ => 0)) [] ops /\ ~ safe (init true (fun _ => 0)) ops /\
  ops = [AddIf None 1; AddTgt 1 7; AddTgt 1 7; RemTgt 2; Flush 2 true].
Proof.
  eexists. split; [|split; [|reflexivity]].
  - fair_tac.
  - intros [a H]. vm_compute in H. discriminate H.
Qed.
Theorem C152_last_target_refuted : exists ops, fair (init true (fun _ => 0)) [] ops /\ ~ safe (init true (fun _ => 0)) ops /\
  ops = [AddIf None 1; AddTgt 1 7; RemIf 1 None; RemTgt 2].
Proof.
  eexists. split; [|split; [|reflexivity]].
  - fair_tac.
  - intros [a H]. vm_compute in H. discriminate H.
Qed.
Theorem C152_listener_refuted : exists ops, fair (init true (fun _ => 0)) [] ops /\ ~ safe (init true (fun _ => 0)) ops /\
  ops = [AddIf (Some 100) 1; AddIf None 1; RemIf 1 (Some 100); Event 1 false].
Proof.
  eexists. split; [|split; [|reflexivity]].
  - fair_tac.
  - intros [a H]. vm_compute in H. discriminate H.
Qed.
(** whatever happened before, the removal of a section of the configuration ends badly *)
Theorem C152_section_refuted s name : ~ safe s [SectionGone name].
Proof. intros [a H]. simpl in H. unfold section_gone in H. destruct (match _ with Some x => _ | None => _ end); discriminate H. Qed.

(** ** Targets and intervals *)
Definition core (y : tgt) := (t_id y, (t_seq y, (t_open y, (t_wait y, t_timer y)))).
Definition tids_ok (s : st) : Prop := NoDup (map t_id (s_ts s)) /\ Forall (fun y => t_id y < s_next s) (s_ts s).
Definition fresh (s s' : st) (y : tgt) : Prop :=
  s_next s <= t_id y < s_next s' /\ t_open y = None /\ t_wait y = [] /\ t_timer y = None.
Definition slow (a : Z) (s : st) : Prop := Forall (fun x => i_agg x <= a) (s_ifs s).
Record keeps (s s' : st) : Prop := {
  k_ts : forall y', In y' (s_ts s') -> (exists y, In y (s_ts s) /\ core y' = core y) \/ fresh s s' y';
  k_ids : tids_ok s -> tids_ok s'; k_next : s_next s <= s_next s';
  k_agg : forall a, 0 <= a -> slow a s -> slow a s' }.
Lemma keeps_refl s : keeps s s.
Proof. split; auto; [|lia]. intros y H. left. exists y. auto. Qed.
Lemma keeps_trans a b c : keeps a b -> keeps b c -> keeps a c.
Proof.
  intros [A1 A2 A3 A4] [B1 B2 B3 B4]. split; auto; [|lia]. intros y H. destruct (B1 y H) as [[z [H1 H2]]|[H1 H2]].
  - destruct (A1 z H1) as [[w [H3 H4]]|[H3 [H4 [H5 H6]]]]; [left; exists w; split; congruence|].
    right. unfold core in H2. injection H2 as E1 E2 E3 E4 E5. unfold fresh. rewrite E1, E3, E4, E5. repeat split; try assumption; lia.
  - right. split; [lia|exact H2].
Qed.
Lemma keeps_if s f : (forall a x, 0 <= a -> slow a s -> In x f -> i_agg x <= a) -> keeps s (set_ifs s f).
Proof.
  intro H. split; auto; [|cbn; lia|].
  - intros y I. left. exists y. auto.
  - intros a L G. apply Forall_forall. intros x I. eauto.
Qed.
Lemma keeps_upd_if s i f : (forall x, i_agg (f x) = i_agg x) -> keeps s (upd_if i f s).
Proof.
  intro F. apply keeps_if. intros a x L G I. apply in_map_iff in I as [z [<- I]].
  unfold slow in G. rewrite Forall_forall in G. destruct (i_id z =? i); [rewrite F|]; auto.
Qed.
Lemma keeps_del s f : keeps s (set_ts s (filter f (s_ts s))).
Proof.
  split; auto; [| |cbn; lia].
  - intros y H. cbn in H. apply filter_In in H as [H _]. left. exists y. auto.
  - intros [N F]. split; cbn.
    + clear F. induction (s_ts s) as [|y l IH]; [constructor|]. inversion N; subst. simpl. destruct (f y); simpl; auto.
      constructor; auto. intro H. apply H1. apply in_map_iff in H as [z [E I]]. apply filter_In in I as [I _]. rewrite <- E. apply in_map. exact I.
    + apply Forall_forall. intros y H. apply filter_In in H as [H _]. rewrite Forall_forall in F. auto.
Qed.
Lemma keeps_create s i d k : keeps s (create_target s i d k).
Proof.
  split; auto; [| |cbn; lia].
  - intros y H. cbn in H. apply in_app_iff in H as [H|[<-|[]]]; [left; exists y; auto|]. right. split; [cbn; lia|]. repeat split.
  - intros [N F]. split; cbn.
    + rewrite map_app. cbn [map]. apply (NoDup_Add (Add_app _ (map t_id (s_ts s)) [])). rewrite app_nil_r. split; [exact N|].
      cbn. intro H. apply in_map_iff in H as [z [E I]]. rewrite Forall_forall in F. specialize (F z I). cbn in E, F. lia.
    + apply Forall_app. split; [|constructor; [cbn; lia|constructor]]. eapply Forall_impl; [|exact F]. intros y H. cbn in *. lia.
Qed.
Lemma keeps_renew s i k a : keeps s (renew s i k a).
Proof. unfold renew. destruct a; [|apply keeps_del]. eapply keeps_trans; [apply keeps_del|apply keeps_create]. Qed.
Lemma keeps_upd_t s t f : (forall y, core (f y) = core y) -> keeps s (upd_t t f s).
Proof.
  intro F. assert (I : forall y, t_id (f y) = t_id y) by (intro y; specialize (F y); unfold core in F; congruence).
  assert (M : map t_id (map (fun x => if t_id x =? t then f x else x) (s_ts s)) = map t_id (s_ts s)).
  { rewrite map_map. apply map_ext. intro y. destruct (t_id y =? t); auto. }
  split; auto; [| |cbn; lia].
  - intros y H. cbn in H. apply in_map_iff in H as [z [<- H]]. left. exists z. split; [exact H|]. destruct (t_id z =? t); auto.
  - intros [N G]. split; cbn; [rewrite M; exact N|]. apply Forall_forall. intros y H. apply in_map_iff in H as [z [<- H]].
    rewrite Forall_forall in G. specialize (G z H). destruct (t_id z =? t); [rewrite I|]; exact G.
Qed.
Lemma keeps_port s p : keeps s (set_port s p).
Proof. split; auto; [|cbn; lia]. intros y H. left. exists y. auto. Qed.
Lemma keeps_lis s p : keeps s (set_lis s p).
Proof. split; auto; [|cbn; lia]. intros y H. left. exists y. auto. Qed.
Lemma keeps_seq s p : keeps s (set_seq s p).
Proof. split; auto; [|cbn; lia]. intros y H. left. exists y. auto. Qed.
Lemma keeps_need s p : keeps s (set_need s p).
Proof. split; auto; [|cbn; lia]. intros y H. left. exists y. auto. Qed.
Lemma keeps_next s : keeps s (set_next s (s_next s + 1)).
Proof.
  split; auto; [| |cbn; lia]. { intros y H. left. exists y. auto. }
  intros [N F]. split; [exact N|]. eapply Forall_impl; [|exact F]. intros y H. cbn in *. lia.
Qed.
Lemma keeps_add_interface s l n : keeps s (fst (add_interface s l n)).
Proof.
  unfold add_interface. destruct (find _ _); simpl.
  - apply keeps_upd_if. reflexivity.
  - eapply keeps_trans; [|apply keeps_upd_if; reflexivity]. eapply keeps_trans; [|apply keeps_seq].
    eapply keeps_trans; [|apply (keeps_next (set_ifs s (s_ifs s ++ [new_itf s n])))].
    apply keeps_if. intros a x L G I. apply in_app_iff in I as [I|[<-|[]]]; [|exact L].
    unfold slow in G. rewrite Forall_forall in G. auto.
Qed.
Lemma keeps_remove_interface s i s' : remove_interface s i = Ok s' -> keeps s s'.
Proof.
  unfold remove_interface. intro H. bnd H. injection H as <-. destruct (i_ref a >? 1); [apply keeps_upd_if; reflexivity|].
  eapply keeps_trans; [apply keeps_del|apply keeps_if]. intros b x L G I. apply filter_In in I as [I _].
  unfold slow in G. rewrite Forall_forall in G. auto.
Qed.
Lemma keeps_add_target s i d r : add_target s i d = Ok r -> keeps s (fst r).
Proof.
  unfold add_target. intro H. bnd H. destruct (find _ _); injection H as <-; simpl; [apply keeps_upd_if; reflexivity|].
  eapply keeps_trans; [apply keeps_create|apply keeps_upd_if; reflexivity].
Qed.
Lemma keeps_remove_target s t s' : remove_target s t = Ok s' -> keeps s s'.
Proof.
  unfold remove_target. intro H. bnd H. bnd H. destruct (t_ref a >? 1); [injection H as <-; apply keeps_upd_t; reflexivity|].
  bnd H. apply keeps_remove_interface in E1. unfold destroy_target in H. bnd H. injection H as <-.
  eapply keeps_trans; [apply keeps_del|]. eapply keeps_trans; [exact E1|apply keeps_del].
Qed.
Lemma keeps_reapply s i s' : reapply s i = Ok s' -> keeps s s'.
Proof.
  unfold reapply. intro H. bnd H. set (s1 := upd_if i (settle s) s) in *.
  assert (C : keeps s s1) by (apply keeps_upd_if; reflexivity). destruct (s_port s1 =? 0); [injection H as <-; exact C|].
  bnd H. apply notify_same in E0. subst. bnd H. injection H as <-.
  eapply keeps_trans; [exact C|]. eapply keeps_trans; apply keeps_renew.
Qed.
Lemma keeps_changed s i ch s' : changed s i ch = Ok s' -> keeps s s'.
Proof.
  unfold changed. intro H. bnd H. apply notify_same in H. subst. destruct ch; [apply (keeps_reapply _ _ _ E)|].
  injection E as <-. apply keeps_refl.
Qed.
Lemma keeps_reconfigure s i c ch s' : reconfigure s i c ch = Ok s' -> keeps s s'.
Proof.
  unfold reconfigure. intro H. bnd H. set (s0 := match c with Some c => upd_if i (take c) s | None => s end) in *.
  assert (C0 : keeps s s0) by (unfold s0; destruct c; [apply keeps_upd_if; reflexivity|apply keeps_refl]).
  set (s1 := upd_if i (settle s0) s0) in *. assert (C : keeps s s1) by (eapply keeps_trans; [exact C0|apply keeps_upd_if; reflexivity]).
  destruct (s_port s1 =? 0); [injection H as <-; exact C|].
  bnd H. apply keeps_changed in E0. bnd H. injection H as <-.
  eapply keeps_trans; [exact C|]. eapply keeps_trans; [exact E0|]. eapply keeps_trans; apply keeps_renew.
Qed.
Lemma keeps_reconf_all ch is : forall s s', reconf_all s is ch = Ok s' -> keeps s s'.
Proof.
  induction is as [|i r IH]; intros s s' H; [injection H as <-; apply keeps_refl|]. simpl in H. bnd H.
  eapply keeps_trans; [apply (keeps_reconfigure _ _ _ _ _ E)|apply (IH _ _ H)].
Qed.
Lemma keeps_protocol s p ch s' : reconfigure_protocol s p ch = Ok s' -> keeps s s'.
Proof.
  unfold reconfigure_protocol. intro H. destruct (p =? s_port s); [injection H as <-; apply keeps_refl|].
  destruct (p =? 0); [injection H as <-; apply keeps_port|]. eapply keeps_trans; [apply keeps_port|apply (keeps_reconf_all _ _ _ _ H)].
Qed.
(** the packets of one target *)
Inductive deals (s : st) : op -> Z -> (tgt -> tgt * list packet) -> Prop :=
| De_msg t m full y x : find_t s t = Some y -> get_if s (t_if y) = Ok x -> deals s (Msg t m full) t (fun y => message s x y m full)
| De_flush t force : deals s (Flush t force) t (fun y => flush s y force)
| De_fire t : deals s (Fire t) t (fun y => flush s (t_set_timer None y) false).
Definition quiet (l : list out) : Prop := forall p, ~ In (Sent p) l.
Lemma step_cases s o r : step s o = Ok r ->
  (exists t f, deals s o t f /\ on_target s t f = Ok r) \/
  (quiet (snd r) /\ ((exists d, o = Tick d /\ fst r = set_now s (s_now s + Z.max 0 d)) \/
     (s_now (fst r) = s_now s /\
      ((exists s1 i v, keeps s s1 /\ fst r = upd_if i (i_set_agg v) s1 /\ exists pre n c ch, o = Section pre n c ch /\ v = c_agg c) \/ keeps s (fst r))))).
Proof.
  intro H.
  assert (R : forall x, ret x = Ok r -> (forall s', x = Ok s' -> keeps s s') -> (forall s', x = Ok s' -> s_now s' = s_now s) ->
    quiet (snd r) /\ s_now (fst r) = s_now s /\ keeps s (fst r)).
  { intros x E C D. unfold ret in E. destruct x; [|discriminate E]. simpl in E. injection E as <-. split; [intros p []|]. split; auto. }
  assert (R2 : forall (P Q : Prop), quiet (snd r) /\ s_now (fst r) = s_now s /\ keeps s (fst r) ->
    quiet (snd r) /\ (P \/ (s_now (fst r) = s_now s /\ (Q \/ keeps s (fst r))))) by tauto.
  assert (Q1 : forall h, quiet [Got h]) by (intros h p [D|[]]; discriminate D).
  destruct o; cbn [step] in H.
  - right. apply R2. injection H as <-. cbn [fst snd]. split; [apply Q1|].
    assert (K : keeps s (match l with Some l => set_lis s (l :: s_lis s) | None => s end)) by (destruct l; [apply keeps_lis|apply keeps_refl]).
    split; [|eapply keeps_trans; [exact K|apply keeps_add_interface]].
    unfold add_interface. destruct (find _ _); destruct l; reflexivity.
  - right. apply R2. apply (R _ H); intros s' E; bnd E; injection E as <-.
    + apply keeps_remove_interface in E0. destruct l; [|exact E0]. eapply keeps_trans; [exact E0|apply keeps_lis].
    + apply calm_remove_interface in E0. destruct l; apply E0.
  - right. apply R2. bnd H. injection H as <-. split; [apply Q1|]. split; [apply (calm_add_target _ _ _ _ E)|apply (keeps_add_target _ _ _ _ E)].
  - right. apply R2. apply (R _ H); intros s' E; [apply (keeps_remove_target _ _ _ E)|apply (calm_remove_target _ _ _ E)].
  - right. apply R2. apply (R _ H); intros s' E; [apply (keeps_reconfigure _ _ _ _ _ E)|apply (calm_reconfigure _ _ _ _ _ E)].
  - right. unfold ret in H. bnd H. injection H as <-. split; [intros p []|]. right. unfold section_set in E. bnd E. injection E as <-.
    cbn [fst]. set (r0 := if pre then _ else _) in *. assert (K : keeps s (fst r0) /\ s_now (fst r0) = s_now s).
    { unfold r0. destruct pre; [split; [apply keeps_refl|reflexivity]|]. split; [apply keeps_add_interface|].
      unfold add_interface. destruct (find _ _); reflexivity. }
    destruct K as [K1 K2]. split; [cbn; rewrite (ca_now _ _ (calm_reconfigure _ _ _ _ _ E0)); exact K2|].
    left. exists a0, (snd r0), (c_agg c). split; [eapply keeps_trans; [exact K1|apply (keeps_reconfigure _ _ _ _ _ E0)]|].
    split; [reflexivity|]. repeat eexists.
  - unfold ret, section_gone in H. bnd H. bnd E. discriminate E.
  - right. apply R2. apply (R _ H); intros s' E; [apply (keeps_changed _ _ _ _ E)|apply (calm_changed _ _ _ _ E)].
  - right. apply R2. apply (R _ H); intros s' E; [apply (keeps_protocol _ _ _ _ E)|apply (calm_protocol _ _ _ _ E)].
  - right. apply R2. apply (R _ H); intros s' E; bnd E; injection E as <-; [apply keeps_upd_if|]; reflexivity.
  - left. unfold get_t in H. destruct (find_t s t) as [y|] eqn:F; [|discriminate H]. cbn [rbind] in H. bnd H.
    exists t, (fun y => message s a y m full). split; [|exact H]. econstructor; eassumption.
  - left. exists t, (fun y => flush s y force). split; [constructor|exact H].
  - destruct (find_t s t) as [y|]; [|right; apply R2; injection H as <-; split; [intros p []|split; [reflexivity|apply keeps_refl]]].
    destruct (t_timer y) as [d|]; [|right; apply R2; injection H as <-; split; [intros p []|split; [reflexivity|apply keeps_refl]]].
    destruct (s_now s <? d); [right; apply R2; injection H as <-; split; [intros p []|split; [reflexivity|apply keeps_refl]]|].
    left. exists t, (fun y => flush s (t_set_timer None y) false). split; [constructor|exact H].
  - right. injection H as <-. split; [intros p []|]. left. exists d. split; reflexivity.
  - right. apply R2. injection H as <-. split; [intros p [D|[]]; discriminate D|]. split; [reflexivity|apply keeps_seq].
  - right. apply R2. injection H as <-. split; [intros p []|]. split; [reflexivity|apply keeps_need].
  - right. apply R2. apply (R _ H); intros s' E; bnd E; injection E as <-; [apply keeps_upd_t|]; reflexivity.
Qed.
Lemma flush_id s y force : t_id (fst (flush s y force)) = t_id y.
Proof. unfold flush. destruct (t_open y) eqn:O; [rewrite O; reflexivity|]. destruct force; [|rewrite O; reflexivity]. reflexivity. Qed.
Lemma message_id s x y m full : t_id (fst (message s x y m full)) = t_id y.
Proof.
  unfold message. set (y1 := match t_open y with Some _ => _ | None => _ end).
  assert (E : t_id y1 = t_id y) by (unfold y1; destruct (t_open y); reflexivity).
  destruct full; cbn [fst snd]; unfold msggen_notifier.
  - assert (E2 : t_id (fst (flush s y1 false)) = t_id y) by (rewrite flush_id; exact E).
    destruct (t_timer _); exact E2.
  - destruct (t_timer _); exact E.
Qed.
Lemma deals_id s o t f y : deals s o t f -> t_id (fst (f y)) = t_id y.
Proof. intros []; [apply message_id|apply flush_id|rewrite flush_id; reflexivity]. Qed.
Lemma find_t_in s t y : find_t s t = Some y -> In y (s_ts s) /\ t_id y = t.
Proof. unfold find_t. intro H. apply find_some in H as [H1 H2]. split; [exact H1|lia]. Qed.
Lemma tids_unique s y z : tids_ok s -> In y (s_ts s) -> In z (s_ts s) -> t_id y = t_id z -> y = z.
Proof.
  intros [N _]. induction (s_ts s) as [|w l IH]; [intros []|]. inversion N; subst. intros [<-|A] [<-|B] E; auto.
  - exfalso. apply H1. rewrite E. apply in_map. exact B.
  - exfalso. apply H1. rewrite <- E. apply in_map. exact A.
Qed.
Lemma ids_upd s t f : (forall y, t_id (f y) = t_id y) -> tids_ok s -> tids_ok (upd_t t f s).
Proof.
  intros I [N G]. split; cbn.
  - rewrite map_map. erewrite map_ext; [exact N|]. intro y. destruct (t_id y =? t); auto.
  - apply Forall_forall. intros y H. apply in_map_iff in H as [z [<- H]]. rewrite Forall_forall in G. specialize (G z H).
    destruct (t_id z =? t); [rewrite I|]; exact G.
Qed.
Lemma step_ids s o r : step s o = Ok r -> tids_ok s -> tids_ok (fst r) /\ s_next s <= s_next (fst r).
Proof.
  intros H T. destruct (step_cases _ _ _ H) as [[t [f [D E]]]|[_ [[d [_ E]]|[_ [[s1 [i [v [K [E _]]]]]|K]]]]].
  - destruct (on_target_eq _ _ _ _ E) as [y [_ [E1 _]]]. rewrite E1. split; [|cbn; lia]. apply ids_upd; [|exact T]. intro z. eapply deals_id, D.
  - rewrite E. split; [exact T|cbn; lia].
  - rewrite E. split; [apply K; exact T|apply K].
  - split; [apply K; exact T|apply K].
Qed.

(** ** C155: packet sequence numbers *)
Lemma consecutive_snoc l q : consecutive l -> l = [] \/ (last l 0 + 1) mod 65536 = q -> consecutive (l ++ [q]).
Proof.
  induction l as [|a [|b l] IH]; intros C E; [exact Logic.I| |].
  - destruct E as [E|E]; [discriminate E|]. simpl in *. auto.
  - destruct C as [C1 C2]. split; [exact C1|]. apply IH; [exact C2|]. destruct E as [E|E]; [discriminate E|]. right. exact E.
Qed.
Definition seqs (ps : list packet) : list Z := flat_map (fun p => match p_seq p with Some q => [q] | None => [] end) ps.
(** the packet that is open and the last number agree with the numbers that were sent *)
Definition link (y : tgt) (l : list Z) : Prop :=
  consecutive l /\
  match t_open y with
  | Some (Some q) => q = t_seq y /\ (l = [] \/ (last l 0 + 1) mod 65536 = q)
  | _ => l = [] \/ last l 0 = t_seq y
  end.
Lemma link_begin s y l : t_open y = None -> link y l -> link (begin_packet s y) l.
Proof.
  unfold link. intros O [C E]. rewrite O in E. split; [exact C|]. simpl. destruct ((t_need y >? 0) || (s_need s >? 0)); [|exact E].
  split; [reflexivity|]. destruct E as [E|E]; [left; exact E|]. right. rewrite E. reflexivity.
Qed.
Lemma link_close y l q : t_open y = Some q -> link y l ->
  link (close_packet y) (l ++ match q with Some q => [q] | None => [] end).
Proof.
  unfold link. intros O [C E]. rewrite O in E. simpl. destruct q as [q|]; [|rewrite app_nil_r; split; assumption].
  destruct E as [E1 E2]. split; [apply consecutive_snoc; assumption|]. right. rewrite last_last. exact E1.
Qed.
Lemma link_flush s y force l : link y l -> link (fst (flush s y force)) (l ++ seqs (snd (flush s y force))).
Proof.
  intro H. unfold flush. destruct (t_open y) as [q|] eqn:O.
  - rewrite O. simpl. rewrite app_nil_r. apply link_close; assumption.
  - destruct force; [|rewrite O; simpl; rewrite app_nil_r; exact H].
    pose proof (link_begin s y l O H) as B. cbn [t_open begin_packet].
    simpl. rewrite app_nil_r. apply (link_close (begin_packet s y)); [reflexivity|exact B].
Qed.
Lemma link_timer v y l : link (t_set_timer v y) l <-> link y l.
Proof. reflexivity. Qed.
Lemma flush_open s y force : t_open (fst (flush s y force)) = None.
Proof. unfold flush. destruct (t_open y) eqn:O; [rewrite O; reflexivity|]. destruct force; [reflexivity|rewrite O; exact O]. Qed.
Lemma link_notifier s x y l : link (msggen_notifier s x y) l <-> link y l.
Proof. unfold msggen_notifier. destruct (t_timer y); reflexivity. Qed.
Lemma link_message s x y m full l : link y l -> link (fst (message s x y m full)) (l ++ seqs (snd (message s x y m full))).
Proof.
  intro H. unfold message. set (y1 := match t_open y with Some _ => y | None => begin_packet s y end).
  assert (H1 : link y1 l) by (unfold y1; destruct (t_open y) eqn:O; [exact H|apply link_begin; assumption]).
  destruct full; cbn [fst snd].
  - apply link_notifier. change (link (begin_packet s (fst (flush s y1 false))) (l ++ seqs (snd (flush s y1 false)))).
    apply link_begin; [apply flush_open|apply link_flush; exact H1].
  - simpl. rewrite app_nil_r. apply link_notifier. exact H1.
Qed.
Lemma deals_link s o t f y l : deals s o t f -> link y l -> link (fst (f y)) (l ++ seqs (snd (f y))).
Proof. intros D L. destruct D; [apply link_message|apply link_flush|apply link_flush; apply link_timer]; exact L. Qed.
Lemma flush_to s y force p : In p (snd (flush s y force)) -> p_t p = t_id y.
Proof.
  unfold flush. destruct (t_open y) eqn:O; [rewrite O; intros [<-|[]]; reflexivity|].
  destruct force; [intros [<-|[]]; reflexivity|]. rewrite O. intros [].
Qed.
Lemma deals_to s o t f y p : deals s o t f -> In p (snd (f y)) -> p_t p = t_id y.
Proof.
  intros D H. destruct D as [t m full z x F G| |]; [|apply (flush_to _ _ _ _ H)|rewrite (flush_to _ _ _ _ H); reflexivity].
  unfold message in H. destruct full; [|destruct H]. cbn [snd] in H. apply flush_to in H. rewrite H. destruct (t_open y); reflexivity.
Qed.
Lemma pkt_seqs_app f a b : pkt_seqs f (a ++ b) = pkt_seqs f a ++ pkt_seqs f b.
Proof. apply flat_map_app. Qed.
Lemma pkt_seqs_quiet f l : quiet l -> pkt_seqs f l = [].
Proof.
  induction l as [|o l IH]; intro Q; [reflexivity|]. simpl. rewrite IH; [|intros p H; apply (Q p); right; exact H].
  destruct o; try reflexivity. exfalso. apply (Q p). left. reflexivity.
Qed.
Lemma pkt_seqs_all f ps : (forall p, In p ps -> f p = true) -> pkt_seqs f (map Sent ps) = seqs ps.
Proof. induction ps as [|p l IH]; intro H; [reflexivity|]. simpl. rewrite (H p), IH; auto; [|left; reflexivity]. intros q Q. apply H. right. exact Q. Qed.
Lemma pkt_seqs_none f ps : (forall p, In p ps -> f p = false) -> pkt_seqs f (map Sent ps) = [].
Proof. induction ps as [|p l IH]; intro H; [reflexivity|]. simpl. rewrite (H p), IH; auto; [|left; reflexivity]. intros q Q. apply H. right. exact Q. Qed.
Definition numbered (t : Z) (s : st) (l : list Z) : Prop :=
  consecutive l /\ (s_next s <= t -> l = []) /\ forall y, In y (s_ts s) -> t_id y = t -> link y l.
Lemma link_core y y' l : core y' = core y -> link y l -> link y' l.
Proof. unfold core. intros [= E1 E2 E3 E4 E5]. unfold link. rewrite E2, E3. exact (fun H => H). Qed.
Lemma numbered_keeps t s s' l : keeps s s' -> numbered t s l -> numbered t s' l.
Proof.
  intros K [C [N F]]. split; [exact C|]. split; [intro H; apply N; pose proof (k_next _ _ K); lia|].
  intros y I E. destruct (k_ts _ _ K y I) as [[z [J D]]|[R [O [W T]]]].
  - apply (link_core z); [exact D|]. apply F; [exact J|]. unfold core in D. congruence.
  - rewrite (N ltac:(lia)). unfold link. rewrite O. split; [exact Logic.I|]. left. reflexivity.
Qed.
Lemma numbered_step t s o r l : tids_ok s -> step s o = Ok r -> numbered t s l ->
  numbered t (fst r) (l ++ pkt_seqs (fun p => p_t p =? t) (snd r)).
Proof.
  intros T H B. destruct (step_cases _ _ _ H) as [[u [f [D E]]]|[Q R]].
  - destruct (on_target_eq _ _ _ _ E) as [y [Fy [E1 E2]]]. destruct (find_t_in _ _ _ Fy) as [Iy Ey]. rewrite E1, E2.
    destruct B as [C [N F]]. destruct (Z.eq_dec u t) as [->|Ne].
    + rewrite pkt_seqs_all; [|intros p Ip; rewrite (deals_to _ _ _ _ _ _ D Ip); lia].
      pose proof (deals_link _ _ _ _ y l D (F y Iy Ey)) as L. split; [apply L|]. split.
      * intro X. exfalso. destruct T as [_ G]. rewrite Forall_forall in G. specialize (G y Iy). cbn in G, X. lia.
      * intros z Iz Ez. cbn in Iz. apply in_map_iff in Iz as [w [<- Iw]]. destruct (t_id w =? t) eqn:Ew; [|lia].
        replace w with y; [exact L|]. apply (tids_unique s); [exact T|exact Iy|exact Iw|]. apply Z.eqb_eq in Ew. congruence.
    + rewrite pkt_seqs_none; [|intros p Ip; rewrite (deals_to _ _ _ _ _ _ D Ip); lia]. rewrite app_nil_r. split; [exact C|]. split; [exact N|].
      intros z Iz Ez. cbn in Iz. apply in_map_iff in Iz as [w [<- Iw]]. destruct (t_id w =? u) eqn:Ew; [|apply F; assumption].
      rewrite (deals_id _ _ _ _ w D) in Ez. lia.
  - rewrite (pkt_seqs_quiet _ _ Q), app_nil_r. destruct R as [[d [_ ->]]|[_ [[s1 [i [v [K [-> _]]]]]|K]]].
    + exact B.
    + exact (numbered_keeps _ _ s1 _ K B).
    + apply (numbered_keeps _ _ _ _ K B).
Qed.
Lemma numbered_run t ops : forall s r l, tids_ok s -> run s ops = Ok r -> numbered t s l ->
  numbered t (fst r) (l ++ pkt_seqs (fun p => p_t p =? t) (snd r)).
Proof.
  induction ops as [|o ops IH]; intros s r l T H B; simpl in H.
  - injection H as <-. simpl. rewrite app_nil_r. exact B.
  - bnd H. bnd H. injection H as <-. cbn [fst snd]. rewrite pkt_seqs_app, app_assoc.
    apply (IH (fst a)); [apply (step_ids _ _ _ E T)|exact E0|apply (numbered_step t _ _ _ _ T E B)].
Qed.
Lemma tids_init fixed rnd : tids_ok (init fixed rnd).
Proof. split; constructor. Qed.
(** the packets that leave through one target object and carry a sequence number carry consecutive ones; missing:
    destinations, because the target for a destination may be replaced *)
Theorem C155_packet_numbers_partial fixed rnd ops r t : run (init fixed rnd) ops = Ok r ->
  consecutive (pkt_seqs (fun p => p_t p =? t) (snd r)).
Proof.
  intro H. apply (numbered_run t _ _ _ [] (tids_init _ _) H). split; [exact Logic.I|]. split; [reflexivity|intros y []].
Qed.
Definition c5 : conf := {| c_raw := false; c_m4 := Some 224; c_m6 := None; c_agg := 1000 |}.
Definition rnd5 (i : Z) : Z := i * 7000.
(** the sockets of an interface change: the packets to its multicast address start again with a random number *)
Theorem C155_socket_change_refuted : exists rnd ops r, run (init false rnd) ops = Ok r /\
  ~ consecutive (pkt_seqs (fun p => p_dst p =? 224) (snd r)).
Proof.
  exists rnd5, [AddIf None 5; Need 1; Port 269 true; Conf 1 c5 true; Msg 3 1 false; Flush 3 false; Event 1 true; Msg 4 2 false; Flush 4 false].
  eexists. split; [vm_compute; reflexivity|]. vm_compute. intros [H _]. discriminate H.
Qed.
Example C155_ex : match run (init false rnd5)
    [AddIf None 5; Need 1; Port 269 true; Conf 1 c5 true; Msg 3 1 false; Msg 3 2 true; Flush 3 false; Need 0; Flush 3 true; Need 1; Flush 3 true] with
  | Ok r => pkt_seqs (fun p => p_t p =? 3) (snd r) = [21001; 21002; 21003] | Bad _ => False end.
Proof. vm_compute. reflexivity. Qed.

(** ** C154: messages leave in time *)
Definition punctual (a now : Z) (y : tgt) : Prop :=
  (t_open y = None -> t_wait y = []) /\
  (forall m c, In (m, c) (t_wait y) -> exists d, t_timer y = Some d /\ d <= c + a) /\
  (forall d, t_timer y = Some d -> d <= now + a).
Lemma punctual_core a n y y' : core y' = core y -> punctual a n y -> punctual a n y'.
Proof. unfold core. intros [= E1 E2 E3 E4 E5]. unfold punctual. rewrite E3, E4, E5. exact (fun H => H). Qed.
Lemma punctual_empty a n y : t_wait y = [] -> (forall d, t_timer y = Some d -> d <= n + a) -> punctual a n y.
Proof. intros W T. split; [intros _; exact W|]. split; [rewrite W; intros m c []|exact T]. Qed.
Lemma flush_timer s y force : t_timer (fst (flush s y force)) = t_timer y.
Proof. unfold flush. destruct (t_open y) eqn:O; [rewrite O; reflexivity|]. destruct force; [reflexivity|rewrite O; reflexivity]. Qed.
Lemma flush_wait s y force : (t_open y = None -> t_wait y = []) -> t_wait (fst (flush s y force)) = [].
Proof. intro H. unfold flush. destruct (t_open y) eqn:O; [rewrite O; reflexivity|]. destruct force; [reflexivity|rewrite O; apply H; reflexivity]. Qed.
Lemma punctual_flush a s y force : punctual a (s_now s) y -> punctual a (s_now s) (fst (flush s y force)).
Proof. intros [O [W T]]. apply punctual_empty; [apply flush_wait; exact O|]. rewrite flush_timer. exact T. Qed.
Lemma punctual_begin a n s y : t_wait y = [] -> punctual a n y -> punctual a n (begin_packet s y).
Proof. intros W [_ [_ T]]. apply punctual_empty; [reflexivity|exact T]. Qed.
Lemma punctual_message a s x y m full : 0 <= a -> i_agg x <= a -> punctual a (s_now s) y -> punctual a (s_now s) (fst (message s x y m full)).
Proof.
  intros P L H. unfold message. set (y1 := match t_open y with Some _ => y | None => begin_packet s y end).
  assert (H1 : punctual a (s_now s) y1).
  { unfold y1. destruct (t_open y) eqn:O; [exact H|]. apply punctual_begin; [apply H; exact O|exact H]. }
  assert (O1 : exists q, t_open y1 = Some q) by (unfold y1; destruct (t_open y) eqn:O; [rewrite O|]; eexists; reflexivity).
  set (y2 := fst (if full then _ else _)).
  assert (H2 : punctual a (s_now s) y2 /\ exists q, t_open y2 = Some q).
  { unfold y2. destruct full; cbn [fst]; [|split; [exact H1|exact O1]]. split; [|eexists; reflexivity].
    apply punctual_begin; [apply flush_wait; apply H1|apply punctual_flush; exact H1]. }
  clearbody y2. destruct H2 as [[_ [W T]] [q O]]. cbn [fst]. unfold msggen_notifier. cbn [t_timer add_msg].
  destruct (t_timer y2) as [d|] eqn:D.
  - split; [cbn; rewrite O; discriminate|]. split; [|cbn; rewrite D; exact T].
    intros k c I. cbn in *. rewrite D. exists d. split; [reflexivity|]. apply in_app_iff in I as [I|[[= <- <-]|[]]].
    + destruct (W _ _ I) as [e [[= <-] L2]]. exact L2.
    + apply T. reflexivity.
  - assert (Z2 : t_wait y2 = []).
    { destruct (t_wait y2) as [|[k c] w]; [reflexivity|]. destruct (W k c (or_introl eq_refl)) as [e [X _]]. discriminate X. }
    split; [cbn; rewrite O; discriminate|]. split; cbn.
    + rewrite Z2. intros k c [[= <- <-]|[]]. eexists. split; [reflexivity|]. lia.
    + intros d [= <-]. lia.
Qed.
Definition on_time (a : Z) (s : st) : Prop := slow a s /\ Forall (punctual a (s_now s)) (s_ts s).
Lemma on_time_keeps a s s' : 0 <= a -> keeps s s' -> s_now s' = s_now s -> on_time a s -> on_time a s'.
Proof.
  intros P K N [A B]. split; [apply (k_agg _ _ K); assumption|]. rewrite N. rewrite Forall_forall in *. intros y I.
  destruct (k_ts _ _ K y I) as [[z [J D]]|[R [O [W T]]]]; [apply (punctual_core _ _ z); auto|].
  apply punctual_empty; [exact W|]. rewrite T. discriminate.
Qed.
Lemma get_if_in s i x : get_if s i = Ok x -> In x (s_ifs s) /\ i_id x = i.
Proof. unfold get_if, find_if. destruct (find _ _) eqn:F; [|discriminate]. intros [= <-]. apply find_some in F as [F1 F2]. split; [exact F1|lia]. Qed.
Lemma on_time_step a s o r : 0 <= a -> at_most a o -> step s o = Ok r -> on_time a s -> on_time a (fst r).
Proof.
  intros P M H B. destruct (step_cases _ _ _ H) as [[u [f [D E]]]|[Q R]].
  - destruct (on_target_eq _ _ _ _ E) as [y [Fy [E1 E2]]]. rewrite E1. destruct B as [S0 F]. split; [exact S0|]. cbn.
    rewrite Forall_forall in *. intros z Iz. apply in_map_iff in Iz as [w [<- Iw]]. destruct (t_id w =? u) eqn:Ew; [|apply F; exact Iw].
    destruct D as [t m full z x Fz G| |].
    + apply punctual_message; [exact P| |apply F; exact Iw]. apply get_if_in in G as [G _]. unfold slow in S0. rewrite Forall_forall in S0. auto.
    + apply punctual_flush, F, Iw.
    + destruct (F w Iw) as [O [W T]]. apply punctual_empty; [apply flush_wait; exact O|]. rewrite flush_timer. discriminate.
  - destruct R as [[d [_ ->]]|[N [[s1 [i [v [K [E [pre [n [c [ch [-> Ev]]]]]]]]]]|K]]].
    + destruct B as [S0 F]. split; [exact S0|]. cbn. eapply Forall_impl; [|exact F]. intros y [O [W T]]. split; [exact O|]. split; [exact W|].
      intros e X. specialize (T e X). lia.
    + rewrite E in *. assert (B1 : on_time a s1) by (apply (on_time_keeps _ s); auto). destruct B1 as [S1 F1]. split; [|exact F1].
      unfold slow in *. rewrite Forall_forall in *. intros x I. cbn in I. apply in_map_iff in I as [z [<- I]].
      destruct (i_id z =? i); [subst v; exact M|auto].
    + apply (on_time_keeps _ s); assumption.
Qed.
Lemma on_time_run a ops : 0 <= a -> Forall (at_most a) ops -> forall s r, run s ops = Ok r -> on_time a s -> on_time a (fst r).
Proof.
  intros P M. induction M as [|o ops M1 M2 IH]; intros s r H B; simpl in H; [injection H as <-; exact B|].
  bnd H. bnd H. injection H as <-. cbn [fst]. apply (IH _ _ E0). apply (on_time_step _ _ _ _ P M1 E B).
Qed.
(** with no interval above [a] in the configuration a timer runs for every message that waits and is due at most [a] after
    it came; missing: the interval of an interface that a caller set, and replaced targets *)
Theorem C154_in_time_partial fixed rnd ops r a : 0 <= a -> Forall (at_most a) ops -> run (init fixed rnd) ops = Ok r -> prompt a (fst r).
Proof.
  intros P M H. apply (on_time_run a _ P M _ _) in H; [|split; constructor]. destruct H as [_ F]. rewrite Forall_forall in F.
  intros t m c I J. destruct (F t I) as [_ [W _]]. exact (W m c J).
Qed.
(** and when it is due all of them leave in one packet *)
Theorem C154_timer_sends fixed rnd ops r y d r' : run (init fixed rnd) ops = Ok r -> find_t (fst r) (t_id y) = Some y -> t_wait y <> [] ->
  t_timer y = Some d -> d <= s_now (fst r) -> step (fst r) (Fire (t_id y)) = Ok r' ->
  exists q, snd r' = [Sent {| p_t := t_id y; p_dst := t_dst y; p_seq := q; p_msgs := t_wait y |}] /\
  forall z, find_t (fst r') (t_id y) = Some z -> t_wait z = [] /\ t_timer z = None.
Proof.
  intros H F W T D G. assert (B : exists a, 0 <= a /\ Forall (at_most a) ops).
  { clear. induction ops as [|o ops [a [P A]]]; [exists 0; split; [lia|constructor]|].
    exists (Z.max a (match o with Section _ _ c _ => c_agg c | _ => 0 end)). split; [lia|]. constructor; [destruct o; simpl; lia || exact Logic.I|].
    eapply Forall_impl; [|exact A]. intros e. destruct e; simpl; lia || auto. }
  destruct B as [a [P A]]. apply (on_time_run a _ P A _ _) in H; [|split; constructor]. destruct H as [_ B]. rewrite Forall_forall in B.
  destruct (find_t_in _ _ _ F) as [Iy _]. destruct (B y Iy) as [O _]. destruct (t_open y) as [q|] eqn:Oy; [|destruct (W (O eq_refl))].
  cbn [step] in G. rewrite F, T in G. destruct (s_now (fst r) <? d) eqn:L; [lia|].
  destruct (on_target_eq _ _ _ _ G) as [y2 [F2 [E1 E2]]]. rewrite F in F2. injection F2 as <-. exists q. split.
  - rewrite E2. unfold flush. cbn [t_open t_set_timer]. rewrite Oy. cbn. rewrite Oy. reflexivity.
  - intros z Fz. rewrite E1 in Fz. apply find_t_in in Fz as [Iz Ez]. cbn in Iz. apply in_map_iff in Iz as [w [Ew Iw]].
    destruct (t_id w =? t_id y) eqn:Q.
    + subst z. destruct (B w Iw) as [Ow _]. split; [apply flush_wait; exact Ow|rewrite flush_timer; reflexivity].
    + subst w. lia.
Qed.
(** the interval that a caller set for an interface is in force but not used *)
Theorem C154_override_refuted : exists ops r, fair (init false rnd5) [] ops /\ run (init false rnd5) ops = Ok r /\
  exists x y m c d, In x (s_ifs (fst r)) /\ In y (s_ts (fst r)) /\ t_if y = i_id x /\ interval x = 500 /\
    In (m, c) (t_wait y) /\ t_timer y = Some d /\ d <> c + interval x.
Proof.
  exists [AddIf None 5; Port 269 true; AddTgt 1 7; Over 1 500; Msg 2 1 false]. eexists. split; [|split; [vm_compute; reflexivity|]].
  - vm_compute. repeat (split; [repeat eexists; auto; fail|]); repeat split; repeat eexists; auto.
  - do 5 eexists. split; [left; reflexivity|]. split; [left; reflexivity|]. vm_compute. repeat (split; [reflexivity|]).
    split; [left; reflexivity|]. split; [reflexivity|discriminate].
Qed.
(** messages that wait for the multicast address of an interface are lost when its sockets change *)
Theorem C154_socket_change_refuted : exists ops r1 o r2 y, run (init false rnd5) ops = Ok r1 /\ In y (s_ts (fst r1)) /\
  t_wait y = [(1, 0)] /\ step (fst r1) o = Ok r2 /\ o = Event (t_if y) true /\ snd r2 = [] /\ flat_map t_wait (s_ts (fst r2)) = [].
Proof.
  exists [AddIf None 5; Port 269 true; Section true 5 c5 true; Msg 3 1 false]. eexists. exists (Event 1 true). eexists. eexists.
  split; [vm_compute; reflexivity|]. split; [left; reflexivity|]. vm_compute. repeat (split; [reflexivity|]). reflexivity.
Qed.
Example C154_ex : match run (init false rnd5)
    [AddIf None 5; Port 269 true; Section true 5 c5 true; Msg 3 1 false; Tick 400; Msg 3 2 false; Tick 500; Fire 3; Tick 100] with
  | Ok r => map (fun y => (t_wait y, t_timer y)) (s_ts (fst r)) = [([(1, 0); (2, 400)], Some 1000)] /\
      match step (fst r) (Fire 3) with Ok r2 => snd r2 = [Sent {| p_t := 3; p_dst := 224; p_seq := None; p_msgs := [(1, 0); (2, 400)] |}] | Bad _ => False end
  | Bad _ => False end.
Proof. vm_compute. split; reflexivity. Qed.

(** ** C153: ports *)
Definition weak (s : st) (x : itf) : Prop :=
  (i_mport x = 0 \/ i_mport x = s_port s) /\ (s_fixed s = true -> i_port x = 0 \/ i_port x = s_port s).
Definition pj (is : list Z) (s : st) : Prop :=
  forall x, In x (s_ifs s) -> weak s x /\ (ported (s_port s) (s_fixed s) x \/ In (i_id x) is).
Definition pk (is is' : list Z) (s s' : st) : Prop := (s_port s' = s_port s /\ s_fixed s' = s_fixed s) /\ (pj is s -> pj is' s').
Lemma pk_trans is1 is2 is3 a b c : pk is1 is2 a b -> pk is2 is3 b c -> pk is1 is3 a c.
Proof. intros [[A1 A2] A3] [[B1 B2] B3]. split; [split; congruence|auto]. Qed.
Lemma pk_same is s s' : s_port s' = s_port s -> s_fixed s' = s_fixed s -> s_ifs s' = s_ifs s -> pk is is s s'.
Proof. intros P F E. split; [auto|]. unfold pj, weak. rewrite P, F, E. exact (fun H => H). Qed.
Lemma pk_refl is s : pk is is s s.
Proof. apply pk_same; reflexivity. Qed.
Lemma pk_upd is s i f : (forall x, i_id (f x) = i_id x /\ i_name (f x) = i_name x /\ i_set (f x) = i_set x /\ i_raw (f x) = i_raw x /\
  i_port (f x) = i_port x /\ i_mport (f x) = i_mport x) -> pk is is s (upd_if i f s).
Proof.
  intro F. split; [split; reflexivity|]. intros J x I. cbn in I. apply in_map_iff in I as [z [<- I]]. specialize (J z I).
  destruct (i_id z =? i); [|exact J]. destruct (F z) as [F1 [F2 [F3 [F4 [F5 F6]]]]]. unfold weak, ported in *. cbn.
  rewrite F1, F2, F3, F4, F5, F6. exact J.
Qed.
Lemma settle_good s x : weak s x -> weak s (settle s x) /\ ported (s_port s) (s_fixed s) (settle s x).
Proof.
  unfold weak, ported, settle. cbn. intros [W1 W2]. split; [split|].
  - destruct (i_raw x); [auto|]. destruct (i_mport x =? 0); auto.
  - intro F. rewrite F in *. destruct (i_name x =? ANY); [auto|]. destruct (i_raw x); [auto|]. destruct (i_port x =? 0) eqn:E; simpl; auto.
  - intros _ R. rewrite R. split; [|split].
    + destruct (i_mport x =? 0) eqn:E; [reflexivity|]. lia.
    + intro F. rewrite F in *. destruct (i_name x =? ANY); [reflexivity|]. destruct (i_port x =? 0) eqn:E; simpl; [reflexivity|]. specialize (W2 eq_refl). lia.
    + intros ->. reflexivity.
Qed.
Lemma take_weak s c x : weak s (take c x).
Proof. unfold weak, take. cbn. auto. Qed.
Lemma pk_settle is s i : pk (i :: is) is s (upd_if i (settle s) s).
Proof.
  split; [split; reflexivity|]. intros J x I. cbn in I. apply in_map_iff in I as [z [<- I]]. destruct (J z I) as [W O].
  destruct (i_id z =? i) eqn:E; [destruct (settle_good s z W); split; [assumption|left; assumption]|].
  split; [exact W|]. destruct O as [O|[O|O]]; [left; exact O|lia|right; exact O].
Qed.
Lemma pk_weaken is i s s' : pk (i :: is) is s s' -> pk is is s s'.
Proof. intros [A B]. split; [exact A|]. intro J. apply B. intros x I. destruct (J x I) as [W [O|O]]; split; auto. right. right. exact O. Qed.
Lemma pk_take is s i c : pk (i :: is) (i :: is) s (upd_if i (take c) s).
Proof.
  split; [split; reflexivity|]. intros J x I. cbn in I. apply in_map_iff in I as [z [<- I]]. destruct (J z I) as [W O].
  destruct (i_id z =? i) eqn:E; [|split; [exact W|exact O]]. split; [apply take_weak|]. right. left. cbn. lia.
Qed.
Lemma pk_renew is s i k a : pk is is s (renew s i k a).
Proof. unfold renew. destruct a; apply pk_same; reflexivity. Qed.
Lemma pk_add_interface is s l n : pk is is s (fst (add_interface s l n)).
Proof.
  unfold add_interface. destruct (find _ _); simpl; [apply pk_upd; intro x; repeat split|].
  eapply pk_trans; [|apply pk_upd; intro x; repeat split]. split; [split; reflexivity|]. intros J x I. cbn in I.
  apply in_app_iff in I as [I|[<-|[]]]; [exact (J x I)|]. split; [split; cbn; auto|]. left. discriminate.
Qed.
Lemma pk_remove_interface is s i s' : remove_interface s i = Ok s' -> pk is is s s'.
Proof.
  unfold remove_interface. intro H. bnd H. injection H as <-. destruct (i_ref a >? 1); [apply pk_upd; intro x; repeat split|].
  split; [split; reflexivity|]. intros J x I. cbn in I. apply filter_In in I as [I _]. exact (J x I).
Qed.
Lemma pk_add_target is s i d r : add_target s i d = Ok r -> pk is is s (fst r).
Proof.
  unfold add_target. intro H. bnd H. destruct (find _ _); injection H as <-; simpl; [apply pk_upd; intro x; repeat split|].
  eapply pk_trans; [|apply pk_upd; intro x; repeat split]. apply pk_same; reflexivity.
Qed.
Lemma pk_remove_target is s t s' : remove_target s t = Ok s' -> pk is is s s'.
Proof.
  unfold remove_target. intro H. bnd H. bnd H. destruct (t_ref a >? 1); [injection H as <-; apply pk_same; reflexivity|].
  bnd H. apply (pk_remove_interface is) in E1. unfold destroy_target in H. bnd H. injection H as <-.
  eapply pk_trans; [|eapply pk_trans; [exact E1|]]; apply pk_same; reflexivity.
Qed.
Lemma pk_reapply is s i s' : reapply s i = Ok s' -> pk is is s s'.
Proof.
  unfold reapply. intro H. bnd H. set (s1 := upd_if i (settle s) s) in *.
  assert (C : pk is is s s1) by (apply pk_weaken with i, pk_settle). destruct (s_port s1 =? 0); [injection H as <-; exact C|].
  bnd H. apply notify_same in E0. subst. bnd H. injection H as <-.
  eapply pk_trans; [exact C|]. eapply pk_trans; apply pk_renew.
Qed.
Lemma pk_changed is s i ch s' : changed s i ch = Ok s' -> pk is is s s'.
Proof.
  unfold changed. intro H. bnd H. apply notify_same in H. subst. destruct ch; [apply (pk_reapply _ _ _ _ E)|].
  injection E as <-. apply pk_refl.
Qed.
Lemma pk_reconfigure is s i c ch s' : reconfigure s i c ch = Ok s' -> pk (i :: is) is s s'.
Proof.
  unfold reconfigure. intro H. bnd H. set (s0 := match c with Some c => upd_if i (take c) s | None => s end) in *.
  assert (C0 : pk (i :: is) (i :: is) s s0) by (unfold s0; destruct c; [apply pk_take|apply pk_refl]).
  set (s1 := upd_if i (settle s0) s0) in *. assert (C : pk (i :: is) is s s1) by (eapply pk_trans; [exact C0|apply pk_settle]).
  destruct (s_port s1 =? 0); [injection H as <-; exact C|].
  bnd H. apply (pk_changed is) in E0. bnd H. injection H as <-.
  eapply pk_trans; [exact C|]. eapply pk_trans; [exact E0|]. eapply pk_trans; apply pk_renew.
Qed.
Lemma pk_reconf_all ch is : forall s s', reconf_all s is ch = Ok s' -> pk is [] s s'.
Proof.
  induction is as [|i r IH]; intros s s' H; [injection H as <-; apply pk_refl|]. simpl in H. bnd H.
  eapply pk_trans; [apply (pk_reconfigure _ _ _ _ _ _ E)|apply (IH _ _ H)].
Qed.
Lemma port_step p s o r : port_is p o -> step s o = Ok r -> (s_port s = 0 \/ s_port s = p) -> pj [] s ->
  (s_port (fst r) = 0 \/ s_port (fst r) = p) /\ s_fixed (fst r) = s_fixed s /\ pj [] (fst r).
Proof.
  intros Po H Q J.
  assert (K : pk [] [] s (fst r) -> (s_port (fst r) = 0 \/ s_port (fst r) = p) /\ s_fixed (fst r) = s_fixed s /\ pj [] (fst r)).
  { intros [[A1 A2] A3]. rewrite A1. auto. }
  assert (R : forall x, ret x = Ok r -> (forall s', x = Ok s' -> pk [] [] s s') -> pk [] [] s (fst r)).
  { intros x E C. unfold ret in E. destruct x; [|discriminate E]. simpl in E. injection E as <-. auto. }
  assert (T : forall t f, on_target s t f = Ok r -> pk [] [] s (fst r)).
  { intros t f E. destruct (on_target_eq _ _ _ _ E) as [y [_ [E1 _]]]. rewrite E1. apply pk_same; reflexivity. }
  destruct o; cbn [step] in H.
  - apply K. injection H as <-. cbn [fst]. eapply pk_trans; [|apply pk_add_interface]. destruct l; apply pk_same; reflexivity.
  - apply K, (R _ H). intros s' E. bnd E. injection E as <-. eapply pk_trans; [apply (pk_remove_interface _ _ _ _ E0)|].
    destruct l; apply pk_same; reflexivity.
  - apply K. bnd H. injection H as <-. apply (pk_add_target _ _ _ _ _ E).
  - apply K, (R _ H). intros s' E. apply (pk_remove_target _ _ _ _ E).
  - apply K, (R _ H). intros s' E. apply pk_weaken with i, (pk_reconfigure _ _ _ _ _ _ E).
  - apply K, (R _ H). intros s' E. unfold section_set in E. bnd E. injection E as <-.
    eapply pk_trans; [|eapply pk_trans; [eapply pk_weaken, (pk_reconfigure _ _ _ _ _ _ E0)|apply pk_upd; intro x; repeat split]].
    destruct pre; [apply pk_refl|apply pk_add_interface].
  - apply K, (R _ H). intros s' E. unfold section_gone in E. bnd E. discriminate E.
  - apply K, (R _ H). intros s' E. apply (pk_changed _ _ _ _ _ E).
  - cbn in Po. subst p0. unfold ret in H. bnd H. injection H as <-. cbn [fst]. unfold reconfigure_protocol in E.
    destruct (p =? s_port s) eqn:D; [injection E as <-; auto|]. assert (Z0 : s_port s = 0) by lia.
    destruct (p =? 0) eqn:D0; [lia|]. destruct (pk_reconf_all _ _ _ _ E) as [[A1 A2] A3]. rewrite A1, A2. split; [right; reflexivity|].
    split; [reflexivity|]. apply A3. intros x I. cbn in I. destruct (J x I) as [[W1 W2] _]. rewrite Z0 in W1, W2. split.
    + split; cbn; [lia|]. intro F. specialize (W2 F). lia.
    + right. cbn. apply in_map. exact I.
  - apply K, (R _ H). intros s' E. bnd E. injection E as <-. apply pk_upd. intro x; repeat split.
  - bnd H. bnd H. apply K, (T _ _ H).
  - apply K, (T _ _ H).
  - assert (N : Ok (s, []) = Ok r -> pk [] [] s (fst r)) by (intros [= <-]; apply pk_refl).
    destruct (find_t s t) as [y|]; [|apply K, N, H]. destruct (t_timer y) as [d|]; [|apply K, N, H].
    destruct (s_now s <? d); [apply K, N, H|apply K, (T _ _ H)].
  - apply K. injection H as <-. apply pk_same; reflexivity.
  - apply K. injection H as <-. apply pk_same; reflexivity.
  - apply K. injection H as <-. apply pk_same; reflexivity.
  - apply K, (R _ H). intros s' E. bnd E. injection E as <-. apply pk_same; reflexivity.
Qed.
Lemma port_run p ops : Forall (port_is p) ops -> forall s r, run s ops = Ok r -> (s_port s = 0 \/ s_port s = p) -> pj [] s ->
  s_fixed (fst r) = s_fixed s /\ pj [] (fst r).
Proof.
  induction 1 as [|o ops M1 M2 IH]; intros s r H Q J; simpl in H; [injection H as <-; auto|].
  bnd H. bnd H. injection H as <-. cbn [fst]. destruct (port_step _ _ _ _ M1 E Q J) as [A1 [A2 A3]].
  destruct (IH _ _ E0 A1 A3) as [B1 B2]. split; [congruence|exact B2].
Qed.
(** while the protocol is given one port only, every interface that was configured and does not use raw sockets
    uses the port of the protocol, in whatever order the port and the configuration of the interfaces came; missing:
    another port later *)
Theorem C153_ports_partial fixed rnd ops r p : Forall (port_is p) ops -> run (init fixed rnd) ops = Ok r ->
  forall x, In x (s_ifs (fst r)) -> ported (s_port (fst r)) fixed x.
Proof.
  intros M H x I. destruct (port_run _ _ M _ _ H) as [F J]; [left; reflexivity|intros z []|].
  destruct (J x I) as [_ [O|[]]]. rewrite F in O. exact O.
Qed.
(** a second port is not taken over by the interfaces *)
Theorem C153_second_port_refuted : exists ops r x, fair (init true rnd5) [] ops /\ run (init true rnd5) ops = Ok r /\
  In x (s_ifs (fst r)) /\ ~ ported (s_port (fst r)) true x.
Proof.
  exists [AddIf None 5; Port 269 true; Conf 1 c5 true; Port 1000 true]. eexists. eexists. split; [|split; [vm_compute; reflexivity|]].
  - vm_compute. split; [exact Logic.I|]. split; [exact Logic.I|]. split; [exists None; left; reflexivity|]. split; exact Logic.I.
  - split; [left; reflexivity|]. vm_compute. intro H. destruct (H eq_refl eq_refl) as [D _]. discriminate D.
Qed.
Example C153_ex : match run (init true rnd5) [AddIf None 5; Conf 1 c5 true; AddIf None ANY; Port 269 true; AddIf None 6] with
  | Ok r => map (fun x => (i_id x, i_set x, (i_port x, i_mport x))) (s_ifs (fst r)) =
      [(1, true, (269, 269)); (2, true, (269, 269)); (5, false, (0, 0))]
  | Bad _ => False end.
Proof. vm_compute. reflexivity. Qed.

Print Assumptions C152_shared_target_refuted.
Print Assumptions C152_last_target_refuted.
Print Assumptions C152_listener_refuted.
Print Assumptions C152_section_refuted.
Print Assumptions C153_ports_partial.
Print Assumptions C153_second_port_refuted.
Print Assumptions C154_in_time_partial.
Print Assumptions C154_timer_sends.
Print Assumptions C154_override_refuted.
Print Assumptions C154_socket_change_refuted.
Print Assumptions C155_packet_numbers_partial.
Print Assumptions C155_socket_change_refuted.
Print Assumptions C156_message_numbers_partial.
Print Assumptions C156_added_interface_refuted.
