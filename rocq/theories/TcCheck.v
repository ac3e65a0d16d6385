(** A test whether a given history of the topology database is allowed, for the
    examples (C79-C84). *)
From Verif Require Import Base TcModel TcSpec TcProofs.
From Verif Require DomModel.

Definition byteb (b : Z) : bool := (0 <=? b) && (b <? 256).
Definition addrb (a : ain) : bool :=
  forallb (fun t => byteb (fst (snd t)) && byteb (snd (snd t))) (i_metric a) &&
  match i_type a with Some b => byteb b | None => true end &&
  match i_gw a with Some (_, v, _) => negb (zlen v =? 0) && forallb byteb v | None => true end.
Definition msgb (m : tcmsg) : bool :=
  (0 <=? m_ansn m) && (m_ansn m <? 65536) && (0 <=? m_vtime m) && forallb (fun a => if i_ok a then addrb a else true) (m_addrs m).
(** [ks]: the neighbors that may be in use *)
Definition inputb (ks : list Z) (w : world) (o : op) : bool :=
  match o with
  | Message m => msgb m
  | Timeout n => match d_nodes (w_db w) n with Some x => match n_valid x with Some _ => true | None => false end | None => false end
  | NbAdd i => match w_nb w i with None => existsb (Z.eqb i) ks | Some _ => false end
  | NbSet i o j =>
    match w_nb w i with None => false | Some _ =>
      match j with
      | Some j => negb (j =? i) && match o, w_nb w j with Some a, Some (Some b) => a =? b | _, _ => false end
      | None => match o with None => true | Some a => forallb (fun k => (k =? i) || match w_nb w k with Some (Some b) => negb (a =? b) | _ => true end) ks end
      end
    end
  | NbRemove i => match w_nb w i with None => false | Some _ => true end
  | Route p => match d_eps (w_db w) p with None => false | Some _ => true end
  end.
Definition ownb (m : tcmsg) (a : ain) : bool :=
  negb (i_ok a && match i_type a with Some b => negb (Z.land b 1 =? 0) | None => false end && (i_addr a =? m_orig m)).
Definition safeb (w : world) (o : op) : bool :=
  match o with
  | Message m => match m_ok m, c_node (w_sess w) with true, _ => forallb (ownb m) (m_addrs m) | false, None => true | false, Some _ => false end
  | Route p => match d_eps (w_db w) p with Some x => zlen (p_atts x) <=? 1 | None => true end
  | _ => true
  end.
Definition timedb (o : op) : bool := match o with Message m => negb (m_vtime m =? 0) | _ => true end.
Definition steadyb (w : world) (o : op) : bool :=
  match o with
  | NbSet i o _ => match w_nb w i, o with Some None, _ => true | Some (Some a), Some b => a =? b | _, _ => false end
  | _ => true
  end.
Definition opb (lv : nat) (ks : list Z) (w : world) (o : op) : bool :=
  inputb ks w o && match lv with
                   | O => true
                   | 1%nat => safeb w o
                   | 2%nat => safeb w o && timedb o
                   | _ => safeb w o && timedb o && steadyb w o
                   end.
Fixpoint guardb (lv : nat) (ks : list Z) (ds : list DomModel.dom) (w : world) (ops : list op) : bool :=
  match ops with
  | [] => true
  | o :: ops' => opb lv ks w o && match step ds w o with Some w' => guardb lv ks ds w' ops' | None => true end
  end.
Definition guard_of (lv : nat) : world -> op -> Prop :=
  match lv with O => input | 1%nat => safe | 2%nat => timed | _ => steady end.

Lemma byteb_ok b : byteb b = true -> byte b. Proof. unfold byteb, byte. rewrite andb_true_iff, Z.leb_le, Z.ltb_lt. auto. Qed.
Lemma msgb_ok m : msgb m = true -> wf_msg m.
Proof.
  unfold msgb, wf_msg. rewrite !andb_true_iff, !Z.leb_le, Z.ltb_lt, forallb_forall. intros (((H1 & H2) & H3) & H4). split; auto. split; auto.
  intros a Ia Oa. specialize (H4 a Ia). rewrite Oa in H4. unfold addrb in H4. rewrite !andb_true_iff, forallb_forall in H4. destruct H4 as ((A1 & A2) & A3). split; [|split].
  - intros e b0 b1 I. specialize (A1 _ I). cbn in A1. apply andb_true_iff in A1. split; apply byteb_ok; apply A1.
  - destruct (i_type a); [apply byteb_ok; auto|auto].
  - destruct (i_gw a) as [((e & v) & k)|]; auto. apply andb_true_iff in A3. destruct A3 as (A3 & A4). split.
    + intros ->. discriminate.
    + apply Forall_forall. intros b I. apply byteb_ok. rewrite forallb_forall in A4. auto.
Qed.
Definition within (ks : list Z) (w : world) : Prop := forall k, w_nb w k <> None -> In k ks.
Lemma inputb_ok ks w o : within ks w -> inputb ks w o = true -> input w o.
Proof.
  intros K H. destruct o as [m|n|i|i o j|i|p]; cbn in *.
  - apply msgb_ok; auto.
  - destruct (d_nodes (w_db w) n) as [x|]; [|discriminate]. exists x. split; auto. destruct (n_valid x); [discriminate|discriminate].
  - destruct (w_nb w i); [discriminate|auto].
  - destruct (w_nb w i) eqn:Hi; [|discriminate]. split; [discriminate|]. destruct j as [j|].
    + apply andb_true_iff in H. destruct H as (H1 & H2). split; [destruct (Z.eqb_spec j i); [discriminate|auto]|]. destruct o as [a|]; [|discriminate]. split; [discriminate|].
      destruct (w_nb w j) as [[b|]|]; try discriminate. apply Z.eqb_eq in H2. congruence.
    + destruct o as [a|]; [|auto]. right. intros k N Q. rewrite forallb_forall in H. specialize (H k (K k ltac:(congruence))). rewrite Q in H. rewrite Z.eqb_refl in H. destruct (Z.eqb_spec k i); [auto|discriminate].
  - destruct (w_nb w i); [discriminate|discriminate].
  - destruct (d_eps (w_db w) p); [discriminate|discriminate].
Qed.
Lemma safeb_ok w o : input w o -> safeb w o = true -> safe w o.
Proof.
  intros I H. split; auto. destruct o as [m|n|i|i o j|i|p]; cbn in *; auto.
  - destruct (m_ok m); [|destruct (c_node (w_sess w)); [discriminate|auto]]. intros a (A1 & A2 & b & A3 & A4) Q. rewrite forallb_forall in H. specialize (H a A1). unfold ownb in H. rewrite A2, A3, Q, Z.eqb_refl in H.
    destruct (Z.eqb_spec (Z.land b 1) 0); [auto|discriminate].
  - intros x Hx. rewrite Hx in H. apply Z.leb_le; auto.
Qed.
Lemma opb_ok lv ks w o : within ks w -> opb lv ks w o = true -> guard_of lv w o.
Proof.
  intros K H. apply andb_true_iff in H. destruct H as (H1 & H2). apply (inputb_ok ks w o K) in H1.
  assert (T : safe w o -> timedb o = true -> timed w o).
  { intros S T. split; auto. destruct o; auto. cbn in T. destruct (Z.eqb_spec (m_vtime m) 0); [discriminate|auto]. }
  assert (St : timed w o -> steadyb w o = true -> steady w o).
  { intros S Q. split; auto. destruct o as [m|n|i|i o j|i|p]; auto. cbn in Q. destruct (w_nb w i) as [[a|]|]; auto; [|discriminate]. destruct o as [b|]; [|discriminate]. apply Z.eqb_eq in Q. right. congruence. }
  destruct lv as [|[|[|lv]]]; cbn in *.
  - auto.
  - apply safeb_ok; auto.
  - apply andb_true_iff in H2. destruct H2. auto using safeb_ok.
  - apply andb_true_iff in H2. destruct H2 as (H2 & H3). apply andb_true_iff in H2. destruct H2. auto using safeb_ok.
Qed.
Lemma step_within ks ds w o w' : within ks w -> inputb ks w o = true -> step ds w o = Some w' -> within ks w'.
Proof.
  intros K Hb H. destruct o as [m|n|i|i o j|i|p]; cbn [step] in H.
  - destruct (tc_message ds (w_db w) (w_sess w) m); [|discriminate]. injection H as <-. auto.
  - destruct (put_node (w_db w) n (nd_valid None)) as [d|]; [|discriminate]. destruct (node_remove d n); [|discriminate]. injection H as <-. auto.
  - injection H as <-. intros k. cbn. unfold hset. destruct (Z.eqb_spec k i) as [->|]; [|apply K]. intros _. cbn in Hb. destruct (w_nb w i); [discriminate|]. apply mem_dec; auto.
  - destruct (w_nb w i) as [old|] eqn:Hi; [|discriminate]. destruct (same_orig old o); [injection H as <-; auto|]. destruct (nb_change (w_db w) o); [|discriminate]. injection H as <-.
    intros k. cbn. unfold hset at 1. destruct (Z.eqb_spec k i) as [->|]; [intros _; apply K; congruence|]. destruct j as [j|]; [|apply K]. unfold hset. destruct (Z.eqb_spec k j) as [->|]; [|apply K]. intros _. apply K.
    cbn in Hb. rewrite Hi in Hb. apply andb_true_iff in Hb. destruct Hb as (_ & Hb). destruct o; [|discriminate]. destruct (w_nb w j); [discriminate|discriminate].
  - destruct (w_nb w i) as [old|] eqn:Hi; [|discriminate]. destruct (nb_remove (w_db w) old); [|discriminate]. injection H as <-. intros k. cbn. unfold hset. destruct (Z.eqb_spec k i); [congruence|apply K].
  - destruct (d_eps (w_db w) p) as [x|]; [|discriminate]. destruct (1 <? zlen (p_atts x)); [destruct (d_nodes (w_db w) (p_orig x)); [|discriminate]|]; injection H as <-; auto.
Qed.
Lemma guardb_ok lv ks ds : forall ops w, within ks w -> guardb lv ks ds w ops = true -> guarded (guard_of lv) ds w ops.
Proof.
  induction ops as [|o ops IH]; intros w K H; cbn [guarded guardb] in *; auto. apply andb_true_iff in H. destruct H as (H1 & H2). split; [eapply opb_ok; eauto|].
  destruct (step ds w o) as [w'|] eqn:E; auto. apply IH; auto. eapply step_within; eauto. apply andb_true_iff in H1. apply H1.
Qed.
Lemma guardb_init lv ks ds ops : guardb lv ks ds init ops = true -> guarded (guard_of lv) ds init ops.
Proof. apply guardb_ok. intros k H. exfalso. apply H. reflexivity. Qed.
Lemma guarded_snoc G ds : forall ops o w w', guarded G ds w (ops ++ [o]) -> run ds w ops = Some w' -> guarded G ds w ops /\ G w' o.
Proof.
  induction ops as [|p ops IH]; intros o w w' H R; cbn [app guarded run] in *.
  - injection R as <-. split; [exact Logic.I|apply H].
  - destruct H as (H1 & H2). destruct (step ds w p) as [w1|]; [|discriminate]. destruct (IH o w1 w' H2 R). auto.
Qed.
(** to look at the result of a run *)
Lemma look {A} ds ops (f : world -> A) v : option_map f (run ds init ops) = Some v -> exists w, run ds init ops = Some w /\ f w = v.
Proof. destruct (run ds init ops) as [w|]; cbn; [|discriminate]. intros [= H]. eauto. Qed.
Lemma run_within_from lv ks ds : forall ops w w', within ks w -> guardb lv ks ds w ops = true -> run ds w ops = Some w' -> within ks w'.
Proof.
  induction ops as [|o ops IH]; intros w w' K H R; cbn [guardb run] in *; [injection R as <-; auto|]. apply andb_true_iff in H. destruct H as (H1 & H2).
  destruct (step ds w o) as [w1|] eqn:E; [|discriminate]. apply (IH w1 w'); auto. eapply step_within; eauto. apply andb_true_iff in H1. apply H1.
Qed.
Lemma run_within lv ks ds ops w : guardb lv ks ds init ops = true -> run ds init ops = Some w -> within ks w.
Proof. apply run_within_from. intros k H. exfalso. apply H. reflexivity. Qed.
Lemma run_snoc_from ds : forall ops o w w1 w2, run ds w ops = Some w1 -> run ds w (ops ++ [o]) = Some w2 -> step ds w1 o = Some w2.
Proof.
  induction ops as [|p ops IH]; intros o w w1 w2 H1 H2; cbn [app run] in *.
  - injection H1 as <-. destruct (step ds w o); [auto|discriminate].
  - destruct (step ds w p) as [w0|]; [|discriminate]. eapply IH; eauto.
Qed.
Lemma run_snoc ds ops o w1 w2 : run ds init ops = Some w1 -> run ds init (ops ++ [o]) = Some w2 -> step ds w1 o = Some w2.
Proof. apply run_snoc_from. Qed.
