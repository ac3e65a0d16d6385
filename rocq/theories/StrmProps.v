(** Theorems about TCP sockets (StrmModel.v).  The specification is stated over the
    operations and what they show: which bytes the application wrote and which were
    sent, which descriptors were opened and closed. *)
From Verif Require Import Base BufLemmas StrmModel.
From Coq Require Import Permutation.

(** ** Specification *)

(** the session an operation is about *)
Definition op_id (o : op) : option Z :=
  match o with Accept _ id _ _ _ _ | ConnectTo _ id _ _ _ _ | Event id _ | Timer id _ | Close id | Write id _ => Some id | _ => None end.
Definition about (id : Z) (o : op) : bool := match op_id o with Some i => i =? id | None => false end.
(** all that the application wrote for a session, all that its peer was sent *)
Fixpoint written_of (id : Z) (h : list (op * report)) : bytes := match h with [] => [] | (o, r) :: t => (if about id o then r_written r else []) ++ written_of id t end.
Fixpoint sent_of (id : Z) (h : list (op * report)) : bytes := match h with [] => [] | (o, r) :: t => (if about id o then r_sent r else []) ++ sent_of id t end.
(** the sessions made; every session has its own number *)
Definition makes (o : op) : list Z := match o with Accept _ id _ _ _ _ | ConnectTo _ id _ _ _ _ => [id] | _ => [] end.
Definition made (os : list op) : list Z := flat_map makes os.

(** an event in which no call of the system fails and the application does not end the
    session by itself *)
Definition gentle (r : reaction) : Prop := c_close r = false /\ c_state r <> Cleanup /\ c_remove r = false.
Definition smooth (e : io) : Prop :=
  match i_recv e with Data _ => i_mem e = true | Failed => False | _ => True end /\ (i_send e < 0 -> i_later e = true) /\ 0 < i_copied e /\
  gentle (i_eof e) /\ gentle (i_data e) /\ match i_under e with Some r => gentle r | None => True end.

(** ** Lists of sessions *)

Lemma get_put : forall id x l j, get j (put id x l) = if j =? id then match get id l with Some _ => Some x | None => None end else get j l.
Proof.
  intros id x l j; induction l as [|[i y] r IH]; cbn [get put].
  - destruct (j =? id); reflexivity.
  - destruct (Z.eqb_spec i id) as [K|N]; cbn [get].
    + subst i. destruct (Z.eqb_spec id j) as [K|N]; [subst; rewrite Z.eqb_refl; reflexivity|].
      destruct (Z.eqb_spec j id); [congruence|reflexivity].
    + rewrite IH. destruct (Z.eqb_spec i j) as [K|N2]; [|reflexivity]. subst. destruct (Z.eqb_spec j id); [congruence|reflexivity].
Qed.
Lemma put_keys : forall id x l, map fst (put id x l) = map fst l.
Proof. intros id x l; induction l as [|[i y] r IH]; cbn [put map]; [reflexivity|]. destruct (i =? id); cbn [map fst]; congruence. Qed.
Lemma get_In : forall id x l, get id l = Some x -> In (id, x) l.
Proof. intros id x l; induction l as [|[i y] r IH]; cbn [get]; intro H; [discriminate|]. destruct (Z.eqb_spec i id); [injection H as <-; subst; left; reflexivity | right; auto]. Qed.
Lemma get_key : forall id x l, get id l = Some x -> In id (map fst l).
Proof. intros id x l H. apply get_In in H. apply in_map_iff. exists (id, x). auto. Qed.
Lemma not_key : forall id l, ~ In id (map fst l) -> get id l = None.
Proof. intros id l H. destruct (get id l) eqn:E; [apply get_key in E; contradiction|reflexivity]. Qed.
Lemma key_get : forall id l, In id (map fst l) -> exists x, get id l = Some x.
Proof.
  intros id l; induction l as [|[i y] r IH]; cbn [map fst get]; intros H; [destruct H|].
  destruct (Z.eqb_spec i id); [eauto|]. destruct H; [congruence|auto].
Qed.
Lemma In_get : forall id x l, NoDup (map fst l) -> In (id, x) l -> get id l = Some x.
Proof.
  intros id x l; induction l as [|[i y] r IH]; cbn [map fst get]; intros N H; [destruct H|]. inversion N; subst.
  destruct H as [H|H]; [injection H as -> ->; rewrite Z.eqb_refl; reflexivity|].
  destruct (Z.eqb_spec i id) as [K|K]; [subst; exfalso; apply H2; apply in_map_iff; exists (id, x); auto | auto].
Qed.
Lemma del_keys : forall id l j, In j (map fst (del id l)) -> In j (map fst l).
Proof. intros id l j; induction l as [|[i y] r IH]; cbn [del map]; intro H; [exact H|]. destruct (i =? id); cbn [map fst In] in *; tauto. Qed.
Lemma del_nodup : forall id l, NoDup (map fst l) -> NoDup (map fst (del id l)).
Proof.
  intros id l; induction l as [|[i y] r IH]; cbn [del map fst]; intro N; [exact N|]. inversion N; subst.
  destruct (i =? id); [assumption|]. cbn [map fst]. constructor; [intro K; apply del_keys in K; contradiction | auto].
Qed.
Lemma get_del : forall id l j, NoDup (map fst l) -> get j (del id l) = if j =? id then None else get j l.
Proof.
  intros id l j; induction l as [|[i y] r IH]; cbn [del map fst get]; intro N; [destruct (j =? id); reflexivity|]. inversion N; subst.
  destruct (Z.eqb_spec i id) as [K|K].
  - subst i. destruct (Z.eqb_spec j id) as [M|M]; [subst j; apply not_key; assumption|]. destruct (Z.eqb_spec id j); [congruence|reflexivity].
  - cbn [get]. rewrite (IH H2). destruct (Z.eqb_spec i j) as [M|M]; [subst; destruct (Z.eqb_spec j id); [congruence|reflexivity] | reflexivity].
Qed.
Lemma del_perm : forall id x l, get id l = Some x -> Permutation (map snd l) (x :: map snd (del id l)).
Proof.
  intros id x l; induction l as [|[i y] r IH]; cbn [get del map snd]; intro H; [discriminate|].
  destruct (i =? id); [injection H as <-; reflexivity|]. cbn [map snd].
  etransitivity; [apply perm_skip; apply IH; exact H | apply perm_swap].
Qed.
Lemma del_len : forall id x l, get id l = Some x -> zlen (del id l) = zlen l - 1.
Proof.
  intros id x l; induction l as [|[i y] r IH]; cbn [get del]; intro H; [discriminate|].
  destruct (i =? id); rewrite ?zlen_cons; [lia | rewrite (IH H); lia].
Qed.
Lemma put_len : forall id x l, zlen (put id x l) = zlen l.
Proof. intros id x l; induction l as [|[i y] r IH]; cbn [put]; [reflexivity|]. destruct (i =? id); rewrite ?zlen_cons; lia. Qed.
Lemma get_snoc : forall id x l j, get j (l ++ [(id, x)]) = match get j l with Some y => Some y | None => if id =? j then Some x else None end.
Proof. intros id x l j; induction l as [|[i y] r IH]; cbn [app get]; [reflexivity|]. destruct (i =? j); [reflexivity|exact IH]. Qed.

(** fewer sessions, the others as they were *)
Definition sub (s' s : sock) : Prop :=
  NoDup (map fst (k_sess s')) /\ (forall id x, get id (k_sess s') = Some x -> get id (k_sess s) = Some x).
Lemma sub_refl : forall s, NoDup (map fst (k_sess s)) -> sub s s.
Proof. intros s N. split; auto. Qed.
Lemma close_sub : forall c id x s s' f, NoDup (map fst (k_sess s)) -> stream_close c id x s = (s', f) -> sub s' s.
Proof.
  intros c id x s s' f N H. injection H as <- <-. split; cbn [k_sess]; [apply del_nodup; exact N|].
  intros j y. rewrite (get_del _ _ _ N). destruct (j =? id); [discriminate|auto].
Qed.
Lemma close_all_sub : forall c l s s' f, NoDup (map fst (k_sess s)) -> close_all c l s = (s', f) -> sub s' s.
Proof.
  intros c l; induction l as [|[i y] r IH]; intros s s' f N H; cbn [close_all] in H; [injection H as <- <-; apply sub_refl; exact N|].
  destruct (zlen (x_out y) =? 0); [|exact (IH _ _ _ N H)].
  destruct (stream_close c i y s) as [s1 f1] eqn:E1. destruct (close_all c r s1) as [s2 f2] eqn:E2. injection H as <- <-.
  destruct (close_sub _ _ _ _ _ _ N E1) as [N1 G1]. destruct (IH _ _ _ N1 E2) as [N2 G2]. split; [exact N2|]. auto.
Qed.
Lemma remove_sub : forall c s s' f, NoDup (map fst (k_sess s)) -> remove c s = (s', f) -> sub s' s.
Proof.
  intros c s s' f N H. unfold remove in H. destruct (negb (k_live s)); [injection H as <- <-; apply sub_refl; exact N|].
  destruct (close_all c (k_sess s) s) as [s1 f1] eqn:E. injection H as <- <-. exact (close_all_sub _ _ _ _ _ N E).
Qed.

(** ** What an event does to a session *)

Ltac wsimp := cbn [w_x w_written w_sent w_copied w_close w_remove upd with_state with_out with_in with_file with_wait with_write no_read not_first with_due
                   x_fd x_copy x_in x_out x_file x_state x_wait x_first x_write x_read x_due] in *.

Definition flow (w w' : work) : Prop :=
  exists a b, w_written w' = w_written w ++ a /\ w_sent w' = w_sent w ++ b /\ x_out (w_x w) ++ a = b ++ x_out (w_x w') /\ x_fd (w_x w') = x_fd (w_x w).
Lemma flow_refl : forall w, flow w w.
Proof. intro w. exists [], []. rewrite !app_nil_r. auto. Qed.
Lemma flow_trans : forall a b d, flow a b -> flow b d -> flow a d.
Proof.
  intros a b d (a1 & b1 & A & B & O & F) (a2 & b2 & A2 & B2 & O2 & F2). exists (a1 ++ a2), (b1 ++ b2).
  rewrite A2, A, B2, B, F2, F, !app_assoc. repeat split; auto. rewrite O, <- !app_assoc, O2. reflexivity.
Qed.
Lemma react_flow : forall r w, flow w (react r w).
Proof. intros r w. exists (c_out r), []. unfold react. destruct (c_file r) as [[fd d]|]; wsimp; rewrite app_nil_r; auto. Qed.
Lemma upd_flow : forall w x, x_out x = x_out (w_x w) -> x_fd x = x_fd (w_x w) -> flow w (upd w x).
Proof. intros w x O F. exists [], []. wsimp. rewrite !app_nil_r, O, F. auto. Qed.
Lemma read_flow : forall c e w, flow w (ev_read c e w).
Proof.
  intros c e w. unfold ev_read. destruct (state_eqb (x_state (w_x w)) Active && i_read e); [|apply flow_refl].
  destruct (i_recv e).
  - destruct (negb (i_mem e)); [apply upd_flow; reflexivity|]. cbv zeta. wsimp.
    destruct (c_max c <? zlen (x_in (w_x w) ++ d)); [|apply upd_flow; reflexivity].
    exists (i_error e), []. wsimp. rewrite app_nil_r. auto.
  - eapply flow_trans; [eapply flow_trans; [|apply react_flow]|]; apply upd_flow; reflexivity.
  - apply flow_refl.
  - apply upd_flow; reflexivity.
Qed.
Lemma data_flow : forall e w, flow w (ev_data e w).
Proof.
  intros e w. unfold ev_data. destruct (state_eqb (x_state (w_x w)) Active && ((0 <? zlen (x_in (w_x w))) || x_first (w_x w))); [|apply flow_refl].
  eapply flow_trans; [apply react_flow|]. apply upd_flow; reflexivity.
Qed.
Lemma send_flow : forall c e w, flow w (ev_send c e w).
Proof.
  intros c e w. unfold ev_send. destruct (negb (state_eqb (x_state (w_x w)) Cleanup) && (0 <? zlen (x_out (w_x w)))); [|apply flow_refl].
  destruct (i_write e); [|apply upd_flow; reflexivity].
  destruct (0 <? i_send e).
  - exists [], (firstn (Z.to_nat (i_send e)) (x_out (w_x w))). wsimp. rewrite !app_nil_r, firstn_skipn. auto.
  - destruct ((i_send e <? 0) && negb (i_later e)); [apply upd_flow; reflexivity | apply flow_refl].
Qed.
Lemma file_flow : forall e w, flow w (ev_file e w).
Proof.
  intros e w. unfold ev_file. destruct (x_file (w_x w)) as [f|]; [|apply flow_refl].
  destruct (state_eqb (x_state (w_x w)) SendAndQuit && (zlen (x_out (w_x w)) =? 0) && i_write e); [|apply flow_refl].
  destruct (i_copied e <=? 0); [apply upd_flow; reflexivity|]. exists [], []. wsimp. rewrite !app_nil_r. auto.
Qed.
Lemma under_flow : forall e w, flow w (ev_under e w).
Proof.
  intros e w. unfold ev_under. destruct (state_eqb (x_state (w_x w)) Active && (zlen (x_out (w_x w)) =? 0)); [|apply flow_refl].
  destruct (i_under e); [apply react_flow | apply flow_refl].
Qed.
Lemma done_flow : forall w, flow w (ev_done w).
Proof.
  intro w. unfold ev_done. destruct ((zlen (x_out (w_x w)) =? 0) && _); [|apply flow_refl]. cbv zeta.
  destruct (state_eqb (x_state (with_write (w_x w) false)) SendAndQuit); apply upd_flow; reflexivity.
Qed.
Lemma connect_same : forall e x, x_out (ev_connect e x) = x_out x /\ x_fd (ev_connect e x) = x_fd x.
Proof. intros e x. unfold ev_connect. destruct (x_wait x && i_write e); [|auto]. destruct (i_conn e =? 0); auto. Qed.
Lemma parse_flow : forall c e x x' w, parse_connection c e x = (x', Some w) ->
  x_out x ++ w_written w = w_sent w ++ x_out (w_x w) /\ x_fd (w_x w) = x_fd x.
Proof.
  intros c e x x' w H. unfold parse_connection in H. destruct (connect_same e x) as [O F].
  destruct (x_wait (ev_connect e x)); [discriminate|]. injection H as <- <-.
  match goal with |- context [w_written ?W] => assert (L : flow (start (ev_connect e x)) W) end.
  { repeat (eapply flow_trans; [|first [apply done_flow | apply under_flow | apply file_flow | apply send_flow | apply data_flow | apply read_flow]]). apply flow_refl. }
  destruct L as (a & b & A & B & E & D). cbn [start w_written w_sent w_x app] in A, B, E, D. rewrite A, B. rewrite <- O, <- F. auto.
Qed.

(** ** The trace *)

Definition lift (h : list (op * report)) : list Z := made (map fst h).
Definition traced (h : list (op * report)) (s : sock) : Prop :=
  NoDup (map fst (k_sess s)) /\ (forall id, In id (map fst (k_sess s)) -> In id (lift h)) /\
  (forall id, ~ In id (lift h) -> written_of id h = [] /\ sent_of id h = []) /\
  (forall id, exists rest, written_of id h = sent_of id h ++ rest) /\
  (forall id x, get id (k_sess s) = Some x -> written_of id h = sent_of id h ++ x_out x).

Lemma written_app : forall id a b, written_of id (a ++ b) = written_of id a ++ written_of id b.
Proof. intros id a b; induction a as [|[o r] t IH]; cbn [app written_of]; [reflexivity|]. rewrite IH, app_assoc. reflexivity. Qed.
Lemma sent_app : forall id a b, sent_of id (a ++ b) = sent_of id a ++ sent_of id b.
Proof. intros id a b; induction a as [|[o r] t IH]; cbn [app sent_of]; [reflexivity|]. rewrite IH, app_assoc. reflexivity. Qed.
Lemma lift_app : forall a b, lift (a ++ b) = lift a ++ lift b.
Proof. intros a b. unfold lift, made. rewrite map_app, flat_map_app. reflexivity. Qed.

(** what a step does for a session: [j] *)
Definition moved (o : op) (r : report) (s s' : sock) : Prop :=
  NoDup (map fst (k_sess s')) /\
  (forall j x', get j (k_sess s') = Some x' ->
     (exists x, get j (k_sess s) = Some x /\ x_out x ++ (if about j o then r_written r else []) = (if about j o then r_sent r else []) ++ x_out x') \/
     (get j (k_sess s) = None /\ In j (makes o) /\ r_written r = x_out x' /\ r_sent r = [])) /\
  (forall j, about j o = true -> get j (k_sess s') = None ->
     (exists x rest, get j (k_sess s) = Some x /\ x_out x ++ r_written r = r_sent r ++ rest) \/ (r_written r = [] /\ r_sent r = [])).

Lemma about_self : forall o j, about j o = true <-> op_id o = Some j.
Proof. intros o j. unfold about. destruct (op_id o); split; intro H; try discriminate; [apply Z.eqb_eq in H; congruence | injection H as ->; apply Z.eqb_refl]. Qed.

Lemma moved_quiet : forall o r s s', NoDup (map fst (k_sess s)) -> sub s' s -> r_written r = [] -> r_sent r = [] -> moved o r s s'.
Proof.
  intros o r s s' N [N' G] W S1. split; [exact N'|]. split.
  - intros j x' H. left. exists x'. split; [auto|]. rewrite W, S1. destruct (about j o); rewrite app_nil_r; reflexivity.
  - intros. right. auto.
Qed.
Lemma create_moved : forall c now id fd wait err m s s' r o, NoDup (map fst (k_sess s)) -> ~ In id (map fst (k_sess s)) -> op_id o = Some id -> makes o = [id] ->
  create_session c now id fd wait err m s = (s', r) -> moved o r s s'.
Proof.
  intros c now id fd wait err m s s' r o N F O M H. unfold create_session in H. destruct m as [|[|]].
  - injection H as <- <-. apply moved_quiet; auto using sub_refl.
  - injection H as <- <-. split; [|split]; cbn [k_sess r_written r_sent].
    + rewrite map_app. cbn [map fst]. apply (Permutation_NoDup (l := id :: map fst (k_sess s))); [apply Permutation_cons_append | constructor; assumption].
    + intros j x'. rewrite get_snoc. destruct (get j (k_sess s)) as [y|] eqn:E.
      * intro K; injection K as <-. left. exists y. split; [reflexivity|].
        assert (A : about j o = false). { unfold about. rewrite O. apply Z.eqb_neq. intro K; subst. apply get_key in E. contradiction. }
        rewrite A, app_nil_r. reflexivity.
      * destruct (Z.eqb_spec id j); [|discriminate]. intro K; injection K as <-. subst j. right. rewrite M. cbn [x_out]. auto with datatypes.
    + intros j A. apply about_self in A. rewrite O in A. injection A as <-. rewrite get_snoc, (not_key _ _ F), Z.eqb_refl. discriminate.
  - injection H as <- <-. apply moved_quiet; auto using sub_refl; cbn [k_sess]; split; auto.
Qed.
Lemma step_moved : forall c o s s' r, NoDup (map fst (k_sess s)) -> (forall id, In id (makes o) -> ~ In id (map fst (k_sess s))) -> step c o s = Some (s', r) -> moved o r s s'.
Proof.
  intros c o s s' r N F H. destruct o; cbn [step] in H.
  - destruct (zlen (k_sess s) =? 0) eqn:Z0; [|discriminate]. unfold add_server in H. destruct listen; injection H as <- <-; apply moved_quiet; auto; split; cbn [k_sess]; auto; try constructor; discriminate.
  - destruct (zlen (k_sess s) =? 0) eqn:Z0; [|discriminate]. injection H as <- <-. apply moved_quiet; auto; split; cbn [k_sess add_client]; [constructor|discriminate].
  - destruct acl.
    + destruct (create_session c now id fd false err m s) as [s1 r1] eqn:E. injection H as <- <-. eapply create_moved; eauto; [|reflexivity|reflexivity]. apply F. left; reflexivity.
    + injection H as <- <-. apply moved_quiet; auto using sub_refl.
  - destruct ((answer =? 0) || (answer =? EINPROGRESS)).
    + destruct (create_session c now id fd (negb (answer =? 0)) err m s) as [s1 r1] eqn:E.
      assert (CM : moved (ConnectTo now id fd answer err m) r1 s s1). { eapply create_moved; eauto; [|reflexivity|reflexivity]. apply F. left; reflexivity. }
      destruct m as [|[|]]; injection H as <- <-; [| exact CM |]; unfold create_session in E; injection E as <- <-; apply moved_quiet; auto; split; cbn [k_sess]; auto.
    + injection H as <- <-. apply moved_quiet; auto; split; cbn [k_sess]; auto.
  - destruct (existsb (Z.eqb id) (k_freed s)); [discriminate|]. destruct (get id (k_sess s)) as [x|] eqn:G; [|injection H as <- <-; apply moved_quiet; auto using sub_refl].
    destruct (parse_connection c e x) as [x' [w|]] eqn:P.
    + destruct (parse_flow _ _ _ _ _ P) as [O FD].
      set (s0 := {| k_live := k_live (with_sess s (put id (w_x w) (k_sess s))); k_fd := k_fd (with_sess s (put id (w_x w) (k_sess s)));
             k_counter := k_counter (with_sess s (put id (w_x w) (k_sess s))); k_sess := k_sess (with_sess s (put id (w_x w) (k_sess s)));
             k_freed := k_freed (with_sess s (put id (w_x w) (k_sess s))); k_remove := k_remove (with_sess s (put id (w_x w) (k_sess s))) || w_remove w |}) in H.
      assert (N0 : NoDup (map fst (k_sess s0))) by (unfold s0; cbn [k_sess with_sess]; rewrite put_keys; exact N).
      destruct (if state_eqb (x_state (w_x w)) Cleanup || w_close w then stream_close c id (w_x w) s0 else (s0, [])) as [s1 f1] eqn:E1.
      assert (S1 : sub s1 s0). { destruct (state_eqb (x_state (w_x w)) Cleanup || w_close w); [eapply close_sub; eauto | injection E1 as <- <-; apply sub_refl; exact N0]. }
      destruct S1 as [N1 G1]. destruct (if k_remove s1 then remove c s1 else (s1, [])) as [s2 f2] eqn:E2.
      assert (S2 : sub s2 s1). { destruct (k_remove s1); [eapply remove_sub; eauto | injection E2 as <- <-; apply sub_refl; exact N1]. }
      destruct S2 as [N2 G2]. injection H as <- <-. split; [exact N2|]. split.
      * intros j y K. apply G2, G1 in K. unfold s0 in K. cbn [k_sess with_sess] in K. rewrite get_put in K. left.
        cbn [r_written r_sent]. unfold about. cbn [op_id]. destruct (Z.eqb_spec j id) as [M|M].
        -- subst j. rewrite G in K. injection K as <-. rewrite Z.eqb_refl. exists x. auto.
        -- exists y. destruct (Z.eqb_spec id j); [congruence|]. rewrite app_nil_r. auto.
      * intros j A _. apply about_self in A. injection A as <-. left. exists x, (x_out (w_x w)). auto.
    + injection H as <- <-. unfold parse_connection in P. destruct (x_wait (ev_connect e x)); [|discriminate]. injection P as <-.
      destruct (connect_same e x) as [O FD]. split; [cbn [k_sess with_sess]; rewrite put_keys; exact N|]. split.
      * intros j y K. cbn [k_sess with_sess] in K. rewrite get_put in K. left. cbn [nothing r_written r_sent].
        destruct (Z.eqb_spec j id) as [M|M].
        -- subst j. rewrite G in K. injection K as <-. exists x. rewrite O. destruct (about id (Event id e)); rewrite app_nil_r; auto.
        -- exists y. destruct (about j (Event id e)); rewrite app_nil_r; auto.
      * intros. right. auto.
  - destruct (existsb (Z.eqb id) (k_freed s)); [discriminate|]. destruct (get id (k_sess s)) as [x|] eqn:G; [|injection H as <- <-; apply moved_quiet; auto using sub_refl].
    destruct (x_due x) as [d|]; [|injection H as <- <-; apply moved_quiet; auto using sub_refl].
    destruct (d <=? now); [|injection H as <- <-; apply moved_quiet; auto using sub_refl].
    destruct (stream_close c id x s) as [s1 f] eqn:E. injection H as <- <-. apply moved_quiet; auto. eapply close_sub; eauto.
  - destruct (get id (k_sess s)) as [x|] eqn:G; [|injection H as <- <-; apply moved_quiet; auto using sub_refl].
    destruct (stream_close c id x s) as [s1 f] eqn:E. injection H as <- <-. apply moved_quiet; auto. eapply close_sub; eauto.
  - destruct (get id (k_sess s)) as [x|] eqn:G; [|injection H as <- <-; apply moved_quiet; auto using sub_refl].
    injection H as <- <-. split; [cbn [k_sess with_sess]; rewrite put_keys; exact N|]. cbn [k_sess with_sess r_written r_sent]. split.
    + intros j y K. rewrite get_put in K. left. unfold about. cbn [op_id]. destruct (Z.eqb_spec j id) as [M|M].
      * subst j. rewrite G in K. injection K as <-. rewrite Z.eqb_refl. exists x. auto.
      * exists y. destruct (Z.eqb_spec id j); [congruence|]. rewrite app_nil_r. auto.
    + intros j A K. apply about_self in A. injection A as <-. rewrite get_put, Z.eqb_refl, G in K. discriminate.
  - destruct (remove c s) as [s1 f] eqn:E. injection H as <- <-. apply moved_quiet; auto. eapply remove_sub; eauto.
Qed.

(** operations for a session that does not exist show nothing *)
Lemma step_silent : forall c o s s' r id, step c o s = Some (s', r) -> about id o = true -> ~ In id (makes o) -> get id (k_sess s) = None -> r_written r = [] /\ r_sent r = [].
Proof.
  intros c o s s' r id H A M G. apply about_self in A. destruct o; cbn [op_id] in A; try discriminate; injection A as ->; cbn [makes] in M; try (exfalso; apply M; left; reflexivity); cbn [step] in H; rewrite ?G in H.
  - destruct (existsb (Z.eqb id) (k_freed s)); [discriminate|]. injection H as <- <-. auto.
  - destruct (existsb (Z.eqb id) (k_freed s)); [discriminate|]. injection H as <- <-. auto.
  - injection H as <- <-. auto.
  - injection H as <- <-. auto.
Qed.

Lemma step_traced : forall c o s s' r h, traced h s -> (forall id, In id (makes o) -> ~ In id (lift h)) -> step c o s = Some (s', r) -> traced (h ++ [(o, r)]) s'.
Proof.
  intros c o s s' r h (N & K & Q & P & B) F H.
  assert (F' : forall id, In id (makes o) -> ~ In id (map fst (k_sess s))). { intros id I1 I2. exact (F id I1 (K _ I2)). }
  destruct (step_moved _ _ _ _ _ N F' H) as (N' & M1 & M2).
  assert (LA : forall id, In id (lift (h ++ [(o, r)])) <-> In id (lift h) \/ In id (makes o)).
  { intro id. rewrite lift_app, in_app_iff. unfold lift at 2, made. cbn [map fst flat_map]. rewrite app_nil_r. tauto. }
  assert (WA : forall id, written_of id (h ++ [(o, r)]) = written_of id h ++ (if about id o then r_written r else [])).
  { intro id. rewrite written_app. cbn [written_of]. rewrite app_nil_r. reflexivity. }
  assert (SA : forall id, sent_of id (h ++ [(o, r)]) = sent_of id h ++ (if about id o then r_sent r else [])).
  { intro id. rewrite sent_app. cbn [sent_of]. rewrite app_nil_r. reflexivity. }
  assert (B' : forall id x, get id (k_sess s') = Some x -> written_of id (h ++ [(o, r)]) = sent_of id (h ++ [(o, r)]) ++ x_out x).
  { intros id x G. rewrite WA, SA. destruct (M1 id x G) as [(x0 & G0 & E) | (G0 & I1 & E1 & E2)].
    - rewrite (B _ _ G0), <- !app_assoc, E. reflexivity.
    - destruct (Q id (F id I1)) as [Q1 Q2]. rewrite Q1, Q2, E1, E2.
      assert (A : about id o = true). { destruct o; cbn [makes] in I1; try destruct I1 as [->|[]]; try destruct I1; unfold about; cbn [op_id]; apply Z.eqb_refl. }
      rewrite A. reflexivity. }
  split; [exact N'|]. split; [|split; [|split; [|exact B']]].
  - intros id I1. apply LA. destruct (key_get _ _ I1) as [x G]. destruct (M1 id x G) as [(x0 & G0 & _) | (_ & I2 & _)]; [left; apply K; eapply get_key; eauto | right; exact I2].
  - intros id I1. rewrite LA in I1. rewrite WA, SA. destruct (Q id) as [Q1 Q2]; [tauto|]. rewrite Q1, Q2. destruct (about id o) eqn:A; [|auto].
    assert (G : get id (k_sess s) = None). { apply not_key. intro I2. apply I1. left. auto. }
    destruct (step_silent _ _ _ _ _ _ H A ltac:(tauto) G) as [-> ->]. auto.
  - intro id. destruct (get id (k_sess s')) as [x|] eqn:G; [exists (x_out x); auto|]. rewrite WA, SA. destruct (about id o) eqn:A; [|destruct (P id) as [rest E]; exists rest; rewrite E, !app_nil_r; reflexivity].
    destruct (M2 id A G) as [(x & rest & G0 & E) | [E1 E2]].
    + exists rest. rewrite (B _ _ G0), <- !app_assoc, E. reflexivity.
    + destruct (P id) as [rest E]. exists rest. rewrite E1, E2, !app_nil_r. exact E.
Qed.
Lemma run_ops : forall c os s s' ts, run c os s = Some (s', ts) -> map fst ts = os.
Proof.
  intros c os; induction os as [|o r IH]; intros s s' ts H; cbn [run] in H; [injection H as <- <-; reflexivity|].
  destruct (step c o s) as [[s1 t]|]; [|discriminate]. destruct (run c r s1) as [[s2 t2]|] eqn:E; [|discriminate]. injection H as <- <-. cbn [map fst]. rewrite (IH _ _ _ E). reflexivity.
Qed.
Lemma run_traced : forall c os s s' ts h, traced h s -> NoDup (lift h ++ made os) -> run c os s = Some (s', ts) -> traced (h ++ ts) s'.
Proof.
  intros c os; induction os as [|o r IH]; intros s s' ts h T N H; cbn [run] in H; [injection H as <- <-; rewrite app_nil_r; exact T|].
  destruct (step c o s) as [[s1 t]|] eqn:E; [|discriminate]. destruct (run c r s1) as [[s2 t2]|] eqn:E2; [|discriminate]. injection H as <- <-.
  unfold made in N. cbn [flat_map] in N. fold (made r) in N.
  assert (F : forall id, In id (makes o) -> ~ In id (lift h)).
  { intros id I1 I2. apply in_split in I2. destruct I2 as (a & b & EQ). rewrite EQ in N. rewrite <- app_assoc in N. cbn [app] in N. apply NoDup_remove_2 in N. apply N. rewrite !in_app_iff. tauto. }
  replace (h ++ (o, t) :: t2) with ((h ++ [(o, t)]) ++ t2) by (rewrite <- app_assoc; reflexivity).
  apply (IH s1 s2 t2 (h ++ [(o, t)])); [eapply step_traced; eauto | | exact E2].
  rewrite lift_app. unfold lift at 2, made at 1. cbn [map fst flat_map]. rewrite app_nil_r, <- app_assoc. exact N.
Qed.
Lemma fresh_traced : traced [] fresh.
Proof. split; [constructor|]. repeat split; auto; try (intros id []); try discriminate. intro id. exists []. reflexivity. Qed.

(** * C137: the peer gets what the application wrote *)

(** what the peer of a session was sent is a begin of what the application wrote, in
    order; while the session exists, the rest is in its buffer *)
Theorem C137_sent_in_order_partial : forall c os s ts id, run c os fresh = Some (s, ts) -> NoDup (made os) ->
  (exists rest, written_of id ts = sent_of id ts ++ rest) /\
  (forall x, get id (k_sess s) = Some x -> written_of id ts = sent_of id ts ++ x_out x).
Proof.
  intros c os s ts id H N. destruct (run_traced c os fresh s ts [] fresh_traced N H) as (_ & _ & _ & P & B). split; [apply P | intros x G; apply B; exact G].
Qed.

Lemma state_eqb_eq : forall a b, state_eqb a b = true <-> a = b.
Proof. intros [] []; split; intro H; (reflexivity || discriminate). Qed.
Lemma state_eqb_refl : forall a, state_eqb a a = true.
Proof. intros []; reflexivity. Qed.

(** in a smooth event no session ends before everything is sent *)
Definition calm (w : work) : Prop := x_state (w_x w) <> Cleanup /\ w_close w = false /\ w_remove w = false.
Lemma react_calm : forall r w, gentle r -> w_close w = false -> w_remove w = false -> calm (react r w).
Proof. intros r w (C & T & R) A B. unfold calm, react. wsimp. rewrite A, B, C, R. auto. Qed.
Lemma parse_calm : forall c e x x' w, parse_connection c e x = (x', Some w) -> smooth e -> x_state x <> Cleanup ->
  w_close w = false /\ w_remove w = false /\ (x_state (w_x w) = Cleanup -> x_out (w_x w) = [] /\ (x_file (w_x w) = None \/ x_file (w_x w) = Some [])).
Proof.
  intros c e x x' w H (SR & SS & SC & GE & GD & GU) X. unfold parse_connection in H.
  destruct (x_wait (ev_connect e x)) eqn:WT; [discriminate|]. injection H as <- <-.
  assert (C0 : calm (start (ev_connect e x))).
  { split; [|auto]. cbn [start w_x]. unfold ev_connect in *. destruct (x_wait x && i_write e) eqn:E; [|exact X]. destruct (i_conn e =? 0); [exact X|]. wsimp. apply andb_prop in E. destruct E. congruence. }
  set (w0 := start (ev_connect e x)) in *. clearbody w0. clear WT.
  assert (C1 : calm (ev_read c e w0)).
  { unfold ev_read. destruct C0 as (A & B & D). destruct (state_eqb (x_state (w_x w0)) Active && i_read e); [|split; auto].
    destruct (i_recv e); [| |split; auto|contradiction].
    - rewrite SR. cbn [negb]. cbv zeta. wsimp. destruct (c_max c <? zlen (x_in (w_x w0) ++ d)); (split; [|auto]); wsimp; [discriminate | exact A].
    - destruct (react_calm (i_eof e) (upd w0 (with_state (w_x w0) SendAndQuit)) GE) as (A1 & B1 & D1); auto. split; [|auto]. wsimp. exact A1. }
  set (w1 := ev_read c e w0) in *. clearbody w1.
  assert (C2 : calm (ev_data e w1)).
  { unfold ev_data. destruct C1 as (A & B & D). destruct (state_eqb (x_state (w_x w1)) Active && ((0 <? zlen (x_in (w_x w1))) || x_first (w_x w1))); [|split; auto].
    destruct (react_calm (i_data e) w1 GD) as (A1 & B1 & D1); auto. split; [|auto]. wsimp. exact A1. }
  set (w2 := ev_data e w1) in *. clearbody w2.
  assert (C3 : calm (ev_send c e w2)).
  { unfold ev_send. destruct C2 as (A & B & D). destruct (negb (state_eqb (x_state (w_x w2)) Cleanup) && (0 <? zlen (x_out (w_x w2)))); [|split; auto].
    destruct (i_write e); [|split; auto]. destruct (0 <? i_send e); [split; auto|].
    destruct (i_send e <? 0) eqn:L; [|split; auto]. rewrite SS by lia. split; auto. }
  set (w3 := ev_send c e w2) in *. clearbody w3.
  assert (C4 : calm (ev_file e w3)).
  { unfold ev_file. destruct C3 as (A & B & D). destruct (x_file (w_x w3)); [|split; auto]. destruct (state_eqb (x_state (w_x w3)) SendAndQuit && (zlen (x_out (w_x w3)) =? 0) && i_write e); [|split; auto].
    replace (i_copied e <=? 0) with false by (symmetry; apply Z.leb_gt; lia). split; auto. }
  set (w4 := ev_file e w3) in *. clearbody w4.
  assert (C5 : calm (ev_under e w4)).
  { unfold ev_under. destruct C4 as (A & B & D). destruct (state_eqb (x_state (w_x w4)) Active && (zlen (x_out (w_x w4)) =? 0)); [|split; auto].
    destruct (i_under e); [apply react_calm; auto | split; auto]. }
  set (w5 := ev_under e w4) in *. clearbody w5.
  destruct C5 as (A & B & D). unfold ev_done. destruct ((zlen (x_out (w_x w5)) =? 0) && match x_file (w_x w5) with Some (_ :: _) => false | _ => true end) eqn:E; cbv zeta.
  - apply andb_prop in E. destruct E as [E1 E2].
    assert (O : x_out (w_x w5) = []) by (destruct (x_out (w_x w5)) as [|z l]; [reflexivity | rewrite zlen_cons in E1; pose proof (zlen_nonneg l); lia]).
    assert (FL : x_file (w_x w5) = None \/ x_file (w_x w5) = Some []) by (destruct (x_file (w_x w5)) as [[|]|]; [right; reflexivity | discriminate | left; reflexivity]).
    destruct (state_eqb (x_state (with_write (w_x w5) false)) SendAndQuit); wsimp; auto.
  - split; [auto|]. split; [auto|]. intro K. contradiction.
Qed.

(** a session that ends in an event without failures, by the peer that closed or by the
    application that was ready to quit: everything written was sent, and the file is
    copied *)
Theorem C137_all_sent_at_end : forall c os s ts id x e s' r, run c os fresh = Some (s, ts) -> NoDup (made os) -> get id (k_sess s) = Some x -> x_state x <> Cleanup -> k_remove s = false ->
  smooth e -> step c (Event id e) s = Some (s', r) -> get id (k_sess s') = None ->
  written_of id (ts ++ [(Event id e, r)]) = sent_of id (ts ++ [(Event id e, r)]).
Proof.
  intros c os s ts id x e s' r H N G X KR SM ST GN. destruct (C137_sent_in_order_partial _ _ _ _ id H N) as [_ B]. specialize (B _ G).
  rewrite written_app, sent_app. cbn [written_of sent_of]. unfold about. cbn [op_id]. rewrite Z.eqb_refl, !app_nil_r, B.
  cbn [step] in ST. destruct (existsb (Z.eqb id) (k_freed s)); [discriminate|]. rewrite G in ST.
  destruct (parse_connection c e x) as [x' [w|]] eqn:P.
  - destruct (parse_flow _ _ _ _ _ P) as [O _]. destruct (parse_calm _ _ _ _ _ P SM X) as (C1 & C2 & C3). rewrite C1, C2, orb_false_r in ST. cbn [k_remove with_sess orb] in ST. rewrite KR in ST. cbn [orb] in ST.
    destruct (state_eqb (x_state (w_x w)) Cleanup) eqn:SE.
    + apply state_eqb_eq in SE. destruct (C3 SE) as [O1 _]. unfold stream_close in ST. cbn [k_remove] in ST. injection ST as <- <-. cbn [r_written r_sent]. rewrite <- app_assoc, O, O1, app_nil_r. reflexivity.
    + cbn [k_remove] in ST. injection ST as <- <-. cbn [k_sess with_sess] in GN. rewrite get_put, Z.eqb_refl, G in GN. discriminate.
  - injection ST as <- <-. cbn [k_sess with_sess] in GN. rewrite get_put, Z.eqb_refl, G in GN. discriminate.
Qed.

(** the file: what is copied in an event is the begin of what was left of it, and only
    when the buffer was sent *)
Theorem C137_file : forall e w, exists rest, w_copied (ev_file e w) = w_copied w ++ rest /\
  match x_file (w_x w) with
  | Some f => exists left, f = rest ++ left /\ x_file (w_x (ev_file e w)) = Some left
  | None => rest = []
  end /\ (rest <> [] -> x_out (w_x w) = [] /\ x_state (w_x w) = SendAndQuit).
Proof.
  intros e w. unfold ev_file. destruct (x_file (w_x w)) as [f|] eqn:F; [|exists []; rewrite app_nil_r; repeat split; auto; congruence].
  destruct (state_eqb (x_state (w_x w)) SendAndQuit && (zlen (x_out (w_x w)) =? 0) && i_write e) eqn:E; [|exists []; rewrite app_nil_r; split; [auto|]; split; [exists f; auto|congruence]].
  destruct (i_copied e <=? 0); [exists []; wsimp; rewrite app_nil_r; split; [auto|]; split; [exists f; auto|congruence]|].
  exists (firstn (Z.to_nat (i_copied e)) f). wsimp. split; [auto|]. split; [exists (skipn (Z.to_nat (i_copied e)) f); rewrite firstn_skipn; auto|].
  intros _. apply andb_prop in E. destruct E as [E _]. apply andb_prop in E. destruct E as [E1 E2]. apply state_eqb_eq in E1.
  split; [|exact E1]. destruct (x_out (w_x w)) as [|z l]; [reflexivity|]. rewrite zlen_cons in E2. pose proof (zlen_nonneg l). lia.
Qed.

(** ** What the sessions are after a step *)

Definition new_session (c : config) (x : session) : Prop :=
  exists now fd wait out st, x = {| x_fd := fd; x_copy := 0; x_in := []; x_out := out; x_file := None; x_state := st; x_wait := wait; x_first := c_first c; x_write := true; x_read := true; x_due := timer_set now (c_timeout c) |}.
Lemma create_shape : forall c now id fd wait err m s s' r j x', create_session c now id fd wait err m s = (s', r) -> get j (k_sess s') = Some x' ->
  get j (k_sess s) = Some x' \/ new_session c x'.
Proof.
  intros c now id fd wait err m s s' r j x' H G. unfold create_session in H. destruct m as [|[|]]; injection H as <- <-; cbn [k_sess] in G; auto.
  rewrite get_snoc in G. destruct (get j (k_sess s)); [auto|]. destruct (id =? j); [|discriminate]. injection G as <-. right. unfold new_session. repeat eexists.
Qed.
Lemma step_shape : forall c o s s' r j x', NoDup (map fst (k_sess s)) -> step c o s = Some (s', r) -> get j (k_sess s') = Some x' ->
  get j (k_sess s) = Some x' \/ new_session c x' \/
  (exists e x, o = Event j e /\ get j (k_sess s) = Some x /\ (parse_connection c e x = (x', None) \/ exists y w, parse_connection c e x = (y, Some w) /\ x' = w_x w /\ x_state x' <> Cleanup)) \/
  (exists d x, o = Write j d /\ get j (k_sess s) = Some x /\ x' = with_write (with_out x (x_out x ++ d)) true).
Proof.
  intros c o s s' r j x' N H GJ. destruct o; cbn [step] in H.
  - destruct (zlen (k_sess s) =? 0); [|discriminate]. unfold add_server in H. destruct listen; injection H as <- <-; cbn [k_sess] in GJ; [discriminate|auto].
  - destruct (zlen (k_sess s) =? 0); [|discriminate]. injection H as <- <-. discriminate.
  - destruct acl; [|injection H as <- <-; auto]. destruct (create_session c now id fd false err m s) as [s1 r1] eqn:E. injection H as <- <-.
    destruct (create_shape _ _ _ _ _ _ _ _ _ _ _ _ E GJ); auto.
  - destruct ((answer =? 0) || (answer =? EINPROGRESS)); [|injection H as <- <-; auto].
    destruct (create_session c now id fd (negb (answer =? 0)) err m s) as [s1 r1] eqn:E.
    assert (GG : get j (k_sess s1) = Some x') by (destruct m as [|[|]]; injection H as <- <-; exact GJ).
    destruct (create_shape _ _ _ _ _ _ _ _ _ _ _ _ E GG); auto.
  - destruct (existsb (Z.eqb id) (k_freed s)); [discriminate|]. destruct (get id (k_sess s)) as [x|] eqn:G; [|injection H as <- <-; auto].
    destruct (parse_connection c e x) as [y [w|]] eqn:P.
    + set (s0 := {| k_live := k_live (with_sess s (put id (w_x w) (k_sess s))); k_fd := k_fd (with_sess s (put id (w_x w) (k_sess s)));
             k_counter := k_counter (with_sess s (put id (w_x w) (k_sess s))); k_sess := k_sess (with_sess s (put id (w_x w) (k_sess s)));
             k_freed := k_freed (with_sess s (put id (w_x w) (k_sess s))); k_remove := k_remove (with_sess s (put id (w_x w) (k_sess s))) || w_remove w |}) in H.
      assert (N0 : NoDup (map fst (k_sess s0))) by (unfold s0; cbn [k_sess with_sess]; rewrite put_keys; exact N).
      destruct (if state_eqb (x_state (w_x w)) Cleanup || w_close w then stream_close c id (w_x w) s0 else (s0, [])) as [s1 f1] eqn:E1.
      assert (S1 : NoDup (map fst (k_sess s1)) /\ (forall i z, get i (k_sess s1) = Some z -> get i (k_sess s0) = Some z /\ (i = id -> x_state (w_x w) <> Cleanup))).
      { destruct (state_eqb (x_state (w_x w)) Cleanup) eqn:SE; cbn [orb] in E1.
        - destruct (close_sub _ _ _ _ _ _ N0 E1) as [A B]. split; [exact A|]. intros i z K. split; [auto|]. intros -> _.
          injection E1 as <- <-. cbn [k_sess] in K. rewrite (get_del _ _ _ N0), Z.eqb_refl in K. discriminate.
        - assert (NC : x_state (w_x w) <> Cleanup) by (intro K; rewrite K in SE; discriminate).
          destruct (w_close w); [destruct (close_sub _ _ _ _ _ _ N0 E1) as [A B]; split; auto | injection E1 as <- <-; auto]. }
      destruct S1 as [N1 G1]. destruct (if k_remove s1 then remove c s1 else (s1, [])) as [s2 f2] eqn:E2.
      assert (S2 : sub s2 s1). { destruct (k_remove s1); [eapply remove_sub; eauto | injection E2 as <- <-; apply sub_refl; exact N1]. }
      destruct S2 as [N2 G2]. injection H as <- <-. apply G2 in GJ. destruct (G1 _ _ GJ) as [K NC]. unfold s0 in K. cbn [k_sess with_sess] in K. rewrite get_put in K.
      destruct (Z.eqb_spec j id) as [M|M]; [|auto]. subst j. rewrite G in K. injection K as <-. right; right; left. exists e, x. split; [reflexivity|]. split; [exact G|]. right. exists y, w. auto.
    + injection H as <- <-. cbn [k_sess with_sess] in GJ. rewrite get_put in GJ. destruct (Z.eqb_spec j id) as [M|M]; [|auto]. subst j. rewrite G in GJ. injection GJ as <-.
      right; right; left. exists e, x. auto.
  - destruct (existsb (Z.eqb id) (k_freed s)); [discriminate|]. destruct (get id (k_sess s)) as [x|] eqn:G; [|injection H as <- <-; auto].
    destruct (x_due x) as [d|]; [|injection H as <- <-; auto]. destruct (d <=? now); [|injection H as <- <-; auto].
    destruct (stream_close c id x s) as [s1 f] eqn:E. injection H as <- <-. left. eapply close_sub; eauto.
  - destruct (get id (k_sess s)) as [x|] eqn:G; [|injection H as <- <-; auto].
    destruct (stream_close c id x s) as [s1 f] eqn:E. injection H as <- <-. left. eapply close_sub; eauto.
  - destruct (get id (k_sess s)) as [x|] eqn:G; [|injection H as <- <-; auto].
    injection H as <- <-. cbn [k_sess with_sess] in GJ. rewrite get_put in GJ. destruct (Z.eqb_spec j id) as [M|M]; [|auto]. subst j. rewrite G in GJ. injection GJ as <-.
    right; right; right. exists d, x. auto.
  - destruct (remove c s) as [s1 f] eqn:E. injection H as <- <-. left. eapply remove_sub; eauto.
Qed.
Lemma step_nodup : forall c o s s' r, NoDup (map fst (k_sess s)) -> (forall id, In id (makes o) -> ~ In id (map fst (k_sess s))) -> step c o s = Some (s', r) -> NoDup (map fst (k_sess s')).
Proof. intros c o s s' r N F H. exact (proj1 (step_moved _ _ _ _ _ N F H)). Qed.

(** a property of every session is kept in runs: it holds for new sessions and is kept
    by events (that meet [E]) and by output of the application *)
Fixpoint events (E : session -> io -> Prop) (c : config) (os : list op) (s : sock) : Prop :=
  match os with
  | [] => True
  | o :: r => match o with Event id e => forall x, get id (k_sess s) = Some x -> E x e | _ => True end /\ forall s' t, step c o s = Some (s', t) -> events E c r s'
  end.
Lemma session_invariant : forall (P : session -> Prop) (E : session -> io -> Prop) c,
  (forall x, new_session c x -> P x) -> (forall x d, P x -> P (with_write (with_out x (x_out x ++ d)) true)) ->
  (forall x e x', P x -> E x e -> parse_connection c e x = (x', None) -> P x') ->
  (forall x e y w, P x -> E x e -> parse_connection c e x = (y, Some w) -> x_state (w_x w) <> Cleanup -> P (w_x w)) ->
  forall os s ts, run c os fresh = Some (s, ts) -> NoDup (made os) -> events E c os fresh -> forall id x, get id (k_sess s) = Some x -> P x.
Proof.
  intros P E c PN PW PC PE os. 
  assert (L : forall s s' ts seen, NoDup (map fst (k_sess s)) -> (forall id, In id (map fst (k_sess s)) -> In id seen) -> NoDup (seen ++ made os) -> events E c os s -> (forall id x, get id (k_sess s) = Some x -> P x) ->
    run c os s = Some (s', ts) -> forall id x, get id (k_sess s') = Some x -> P x).
  { induction os as [|o r IH]; intros s s' ts seen N K ND EV A H; cbn [run] in H; [injection H as <- <-; exact A|].
    destruct (step c o s) as [[s1 t]|] eqn:ST; [|discriminate]. destruct (run c r s1) as [[s2 t2]|] eqn:E2; [|discriminate]. injection H as <- <-.
    cbn [events] in EV. destruct EV as [EV1 EV2]. unfold made in ND. cbn [flat_map] in ND. fold (made r) in ND.
    assert (F : forall id, In id (makes o) -> ~ In id (map fst (k_sess s))).
    { intros id I1 I2. apply K in I2. apply in_split in I2. destruct I2 as (a & b & EQ). rewrite EQ, <- app_assoc in ND. cbn [app] in ND. apply NoDup_remove_2 in ND. apply ND. rewrite !in_app_iff. tauto. }
    refine (IH s1 s2 t2 (seen ++ makes o) (step_nodup _ _ _ _ _ N F ST) _ _ (EV2 _ _ ST) _ E2).
    - intros id I1. apply in_app_iff. destruct (key_get _ _ I1) as [x G]. destruct (proj1 (proj2 (step_moved _ _ _ _ _ N F ST)) id x G) as [(x0 & G0 & _) | (_ & I2 & _)]; [left; apply K; eapply get_key; eauto | right; exact I2].
    - rewrite <- app_assoc. exact ND.
    - intros id x G. destruct (step_shape _ _ _ _ _ _ _ N ST G) as [G0 | [NS | [(e & x0 & -> & G0 & PP) | (d & x0 & -> & G0 & ->)]]]; eauto.
      destruct PP as [PP | (y & w & PP & -> & SC)]; eauto. }
  intros s ts H ND EV. refine (L fresh s ts [] _ _ ND EV _ H); [constructor | intros id [] | discriminate].
Qed.

(** ** Interest in writing *)

(** the scheduler reports only events somebody is interested in; the callback
    buffer_underrun is not used *)
Definition polled (x : session) (e : io) : Prop := (i_write e = true -> x_write x = true) /\ i_under e = None.
Theorem C137_output_is_polled_partial : forall c os s ts id x, run c os fresh = Some (s, ts) -> NoDup (made os) -> events polled c os fresh ->
  get id (k_sess s) = Some x -> x_out x <> [] -> x_write x = true.
Proof.
  intros c os s ts id x H N EV G. revert s ts H N EV id x G. apply (session_invariant (fun x => x_out x <> [] -> x_write x = true) polled c).
  - intros x (now & fd & wait & out & st & ->) _. reflexivity.
  - intros x d _ _. reflexivity.
  - intros x e x' A _ P. unfold parse_connection in P. destruct (x_wait (ev_connect e x)); [|discriminate]. injection P as <-. unfold ev_connect.
    destruct (x_wait x && i_write e); [|exact A]. destruct (i_conn e =? 0); exact A.
  - intros x e y w A [PW PU] P SC. unfold parse_connection in P. destruct (x_wait (ev_connect e x)) eqn:WT; [discriminate|]. injection P as <- <-. revert SC.
    assert (W0 : x_write (w_x (start (ev_connect e x))) = x_write x). { cbn [start w_x]. unfold ev_connect. destruct (x_wait x && i_write e); [destruct (i_conn e =? 0)|]; reflexivity. }
    set (w0 := start (ev_connect e x)) in *. clearbody w0.
    assert (W1 : x_write (w_x (ev_read c e w0)) = x_write (w_x w0)).
    { unfold ev_read. destruct (state_eqb (x_state (w_x w0)) Active && i_read e); [|reflexivity]. destruct (i_recv e); [| |reflexivity|reflexivity].
      - destruct (negb (i_mem e)); [reflexivity|]. cbv zeta. wsimp. destruct (c_max c <? zlen (x_in (w_x w0) ++ d)); reflexivity.
      - unfold react. destruct (c_file (i_eof e)) as [[fd d]|]; reflexivity. }
    set (w1 := ev_read c e w0) in *. clearbody w1.
    assert (W2 : x_write (w_x (ev_data e w1)) = x_write (w_x w1)).
    { unfold ev_data. destruct (state_eqb (x_state (w_x w1)) Active && ((0 <? zlen (x_in (w_x w1))) || x_first (w_x w1))); [|reflexivity]. unfold react. destruct (c_file (i_data e)) as [[fd d]|]; reflexivity. }
    set (w2 := ev_data e w1) in *. clearbody w2. rewrite W1, W0 in W2. clear W0 W1.
    assert (W3 : x_state (w_x (ev_send c e w2)) <> Cleanup -> x_out (w_x (ev_send c e w2)) <> [] -> x_write (w_x (ev_send c e w2)) = true).
    { unfold ev_send. destruct (state_eqb (x_state (w_x w2)) Cleanup) eqn:SE; cbn [negb andb]; [apply state_eqb_eq in SE; congruence|].
      destruct (Z.ltb_spec 0 (zlen (x_out (w_x w2)))) as [L|L].
      - destruct (i_write e); [|reflexivity]. destruct (0 <? i_send e); [wsimp; rewrite W2; auto|]. destruct ((i_send e <? 0) && negb (i_later e)); wsimp; rewrite W2; auto.
      - intros _ K. exfalso. apply K. destruct (x_out (w_x w2)) as [|z l]; [reflexivity|]. rewrite zlen_cons in L. pose proof (zlen_nonneg l). lia. }
    set (w3 := ev_send c e w2) in *. clearbody w3.
    assert (W4 : x_state (w_x (ev_file e w3)) <> Cleanup -> x_out (w_x (ev_file e w3)) <> [] -> x_write (w_x (ev_file e w3)) = true).
    { unfold ev_file. destruct (x_file (w_x w3)); [|exact W3]. destruct (state_eqb (x_state (w_x w3)) SendAndQuit && (zlen (x_out (w_x w3)) =? 0) && i_write e); [|exact W3].
      destruct (i_copied e <=? 0); wsimp; [congruence|exact W3]. }
    set (w4 := ev_file e w3) in *. clearbody w4.
    assert (U : ev_under e w4 = w4). { unfold ev_under. rewrite PU. destruct (state_eqb (x_state (w_x w4)) Active && (zlen (x_out (w_x w4)) =? 0)); reflexivity. }
    rewrite U. unfold ev_done. destruct (zlen (x_out (w_x w4)) =? 0) eqn:Z0; cbn [andb]; [|exact W4].
    assert (O : x_out (w_x w4) = []) by (destruct (x_out (w_x w4)) as [|z l]; [reflexivity | rewrite zlen_cons in Z0; pose proof (zlen_nonneg l); lia]).
    intros _ K. exfalso. apply K. destruct (match x_file (w_x w4) with Some (_ :: _) => false | _ => true end); cbv zeta; [|exact O].
    destruct (state_eqb (x_state (with_write (w_x w4) false)) SendAndQuit); exact O.
Qed.

(** ** Input *)

(** the input of a session never exceeds the configured limit by more than one block *)
Definition blocks (x : session) (e : io) : Prop := match i_recv e with Data d => zlen d <= 1024 | _ => True end.
Lemma skipn_le : forall (n : nat) (l : bytes), zlen (skipn n l) <= zlen l.
Proof. intros n; induction n as [|n IH]; intro l; cbn [skipn]; [lia|]. destruct l as [|z l]; [lia|]. rewrite zlen_cons. specialize (IH l). lia. Qed.
Theorem C138_input_limit : forall c os s ts id x, 0 <= c_max c -> run c os fresh = Some (s, ts) -> NoDup (made os) -> events blocks c os fresh ->
  get id (k_sess s) = Some x -> zlen (x_in x) <= c_max c + 1024 /\ (x_state x = Active -> zlen (x_in x) <= c_max c).
Proof.
  intros c os s ts id x M H N EV G. revert s ts H N EV id x G.
  set (P := fun x => zlen (x_in x) <= c_max c + 1024 /\ (x_state x = Active -> zlen (x_in x) <= c_max c)).
  assert (R : forall r w, zlen (x_in (w_x w)) <= c_max c -> P (w_x (react r w))).
  { intros r w L. unfold P, react. pose proof (skipn_le (Z.to_nat (c_take r)) (x_in (w_x w))). destruct (c_file r) as [[fd d]|]; wsimp; split; intros; lia. }
  apply (session_invariant P blocks c).
  - intros x (now & fd & wait & out & st & ->). unfold P. wsimp. rewrite zlen_nil. lia.
  - intros x d A. exact A.
  - intros x e x' A _ PC. unfold parse_connection in PC. destruct (x_wait (ev_connect e x)); [|discriminate]. injection PC as <-. unfold ev_connect.
    destruct (x_wait x && i_write e); [|exact A]. destruct (i_conn e =? 0); [exact A|]. unfold P in *. wsimp. intuition discriminate.
  - intros x e y w A B PC _. unfold parse_connection in PC. destruct (x_wait (ev_connect e x)) eqn:WT; [discriminate|]. injection PC as <- <-.
    assert (A0 : P (w_x (start (ev_connect e x)))). { cbn [start w_x]. unfold ev_connect. destruct (x_wait x && i_write e); [|exact A]. destruct (i_conn e =? 0); [exact A|]. unfold P in *. wsimp. intuition discriminate. }
    set (w0 := start (ev_connect e x)) in *. clearbody w0.
    assert (A1 : P (w_x (ev_read c e w0))).
    { unfold ev_read. destruct (state_eqb (x_state (w_x w0)) Active) eqn:SE; cbn [andb]; [|exact A0]. apply state_eqb_eq in SE. destruct (i_read e); [|exact A0].
      unfold blocks in B. pose proof (proj2 A0 SE) as L0. destruct (i_recv e).
      - destruct (negb (i_mem e)); [unfold P in *; wsimp; intuition discriminate|]. cbv zeta. wsimp. destruct (Z.ltb_spec (c_max c) (zlen (x_in (w_x w0) ++ d))) as [L|L]; unfold P; wsimp; rewrite zlen_app in *; split; intros; try discriminate; lia.
      - refine (R (i_eof e) (upd w0 (with_state (w_x w0) SendAndQuit)) _). wsimp. exact L0.
      - exact A0.
      - unfold P in *; wsimp; intuition discriminate. }
    set (w1 := ev_read c e w0) in *. clearbody w1.
    assert (A2 : P (w_x (ev_data e w1))).
    { unfold ev_data. destruct (state_eqb (x_state (w_x w1)) Active) eqn:SE; cbn [andb]; [|exact A1]. apply state_eqb_eq in SE. destruct ((0 <? zlen (x_in (w_x w1))) || x_first (w_x w1)); [|exact A1].
      exact (R (i_data e) w1 (proj2 A1 SE)). }
    set (w2 := ev_data e w1) in *. clearbody w2.
    assert (A3 : P (w_x (ev_send c e w2))).
    { unfold ev_send. destruct (negb (state_eqb (x_state (w_x w2)) Cleanup) && (0 <? zlen (x_out (w_x w2)))); [|exact A2]. destruct (i_write e); [|exact A2].
      destruct (0 <? i_send e); [exact A2|]. destruct ((i_send e <? 0) && negb (i_later e)); [|exact A2]. unfold P in *; wsimp; intuition discriminate. }
    set (w3 := ev_send c e w2) in *. clearbody w3.
    assert (A4 : P (w_x (ev_file e w3))).
    { unfold ev_file. destruct (x_file (w_x w3)); [|exact A3]. destruct (state_eqb (x_state (w_x w3)) SendAndQuit && (zlen (x_out (w_x w3)) =? 0) && i_write e); [|exact A3].
      destruct (i_copied e <=? 0); [unfold P in *; wsimp; intuition discriminate | exact A3]. }
    set (w4 := ev_file e w3) in *. clearbody w4.
    assert (A5 : P (w_x (ev_under e w4))).
    { unfold ev_under. destruct (state_eqb (x_state (w_x w4)) Active) eqn:SE; cbn [andb]; [|exact A4]. apply state_eqb_eq in SE. destruct (zlen (x_out (w_x w4)) =? 0); [|exact A4].
      destruct (i_under e); [exact (R r w4 (proj2 A4 SE)) | exact A4]. }
    set (w5 := ev_under e w4) in *. clearbody w5.
    unfold ev_done. destruct ((zlen (x_out (w_x w5)) =? 0) && match x_file (w_x w5) with Some (_ :: _) => false | _ => true end); [|exact A5]. cbv zeta.
    destruct (state_eqb (x_state (with_write (w_x w5) false)) SendAndQuit) eqn:SE; [|exact A5]. unfold P in *; wsimp; intuition discriminate.
Qed.

(** * C138: limits *)

(** connections that were told "too many sessions"; accepted ones whose init failed *)
Fixpoint count (f : report -> bool) (h : list (op * report)) : Z := match h with [] => 0 | (_, r) :: t => (if f r then 1 else 0) + count f t end.
Definition rejected (r : report) : bool := r_rejected r && negb (r_failed_init r).
Definition leaked (r : report) : bool := r_failed_init r && negb (r_rejected r).
Lemma count_nonneg : forall f h, 0 <= count f h.
Proof. intros f h; induction h as [|[o r] t IH]; cbn [count]; [lia|]. destruct (f r); lia. Qed.

Definition spare (s : sock) : Z := k_counter s - zlen (k_sess s).
Lemma close_spare : forall c id x y s s' f, get id (k_sess s) = Some y -> stream_close c id x s = (s', f) -> spare s' = spare s /\ k_counter s' <= k_counter s.
Proof. intros c id x y s s' f G H. injection H as <- <-. unfold spare. cbn [k_counter k_sess]. rewrite (del_len _ _ _ G). lia. Qed.
Lemma close_all_spare : forall c l s s' f, NoDup (map fst l) -> NoDup (map fst (k_sess s)) -> (forall id x, In (id, x) l -> get id (k_sess s) = Some x) -> close_all c l s = (s', f) ->
  spare s' = spare s /\ k_counter s' <= k_counter s.
Proof.
  intros c l; induction l as [|[i y] r IH]; intros s s' f NL N A H; cbn [close_all] in H; [injection H as <- <-; lia|]. inversion NL; subst.
  destruct (zlen (x_out y) =? 0); [|refine (IH s s' f H3 N _ H); intros; apply A; right; assumption].
  destruct (stream_close c i y s) as [s1 f1] eqn:E1. destruct (close_all c r s1) as [s2 f2] eqn:E2. injection H as <- <-.
  destruct (close_spare _ _ _ _ _ _ _ (A i y (or_introl eq_refl)) E1) as [P1 L1].
  destruct (close_sub _ _ _ _ _ _ N E1) as [N1 _]. refine (let IH' := IH s1 s2 f2 H3 N1 _ E2 in _).
  - destruct IH' as [P2 L2]. lia.
  Unshelve. intros id x I1. injection E1 as <- <-. cbn [k_sess]. rewrite (get_del _ _ _ N). destruct (Z.eqb_spec id i) as [M|M]; [subst; exfalso; apply H2; apply in_map_iff; exists (i, x); auto | apply A; right; exact I1].
Qed.
Lemma remove_spare : forall c s s' f, NoDup (map fst (k_sess s)) -> remove c s = (s', f) -> spare s' = spare s /\ k_counter s' <= k_counter s.
Proof.
  intros c s s' f N H. unfold remove in H. destruct (negb (k_live s)); [injection H as <- <-; lia|]. destruct (close_all c (k_sess s) s) as [s1 f1] eqn:E. injection H as <- <-.
  exact (close_all_spare _ _ _ _ _ N N (fun id x I1 => In_get _ _ _ N I1) E).
Qed.
Definition one (b : bool) : Z := if b then 1 else 0.
Lemma create_spare : forall c now id fd wait err m s s' r, create_session c now id fd wait err m s = (s', r) ->
  spare s' = spare s - one (rejected r) + one (leaked r) /\ (k_counter s <= c_allowed c -> k_counter s' <= c_allowed c).
Proof.
  intros c now id fd wait err m s s' r H. unfold create_session in H.
  destruct m as [|[|]]; injection H as <- <-; unfold spare, rejected, leaked, one; cbn [k_counter k_sess r_rejected r_failed_init]; rewrite ?zlen_app, ?zlen_cons, ?zlen_nil;
    destruct (Z.ltb_spec (k_counter s) (c_allowed c)); cbn [negb andb]; split; intros; lia.
Qed.
Lemma step_spare : forall c o s s' r, NoDup (map fst (k_sess s)) -> step c o s = Some (s', r) ->
  spare s' = spare s - one (rejected r) + one (leaked r) /\ (k_counter s <= c_allowed c -> k_counter s' <= c_allowed c).
Proof.
  intros c o s s' r N H.
  assert (Q : forall s1 f, spare s1 = spare s /\ k_counter s1 <= k_counter s -> Some (s1, closing f) = Some (s', r) -> spare s' = spare s - one (rejected r) + one (leaked r) /\ (k_counter s <= c_allowed c -> k_counter s' <= c_allowed c)).
  { intros s1 f [A B] E. injection E as <- <-. unfold rejected, leaked, closing, one. cbn [r_rejected r_failed_init negb andb]. lia. }
  assert (Q0 : Some (s, nothing) = Some (s', r) -> spare s' = spare s - one (rejected r) + one (leaked r) /\ (k_counter s <= c_allowed c -> k_counter s' <= c_allowed c)).
  { intro E. injection E as <- <-. unfold rejected, leaked, nothing, one. cbn [r_rejected r_failed_init negb andb]. lia. }
  destruct o; cbn [step] in H.
  - destruct (Z.eqb_spec (zlen (k_sess s)) 0) as [Z0|]; [|discriminate]. unfold add_server in H. destruct listen; injection H as <- <-; unfold spare, rejected, leaked, one; cbn [k_counter k_sess r_rejected r_failed_init negb andb]; rewrite ?zlen_nil; lia.
  - destruct (Z.eqb_spec (zlen (k_sess s)) 0) as [Z0|]; [|discriminate]. injection H as <- <-. unfold spare, rejected, leaked, one. cbn [add_client nothing k_counter k_sess r_rejected r_failed_init negb andb]. rewrite ?zlen_nil. lia.
  - destruct acl; [|injection H as <- <-; unfold rejected, leaked, one; cbn [r_rejected r_failed_init negb andb]; lia].
    destruct (create_session c now id fd false err m s) as [s1 r1] eqn:E. injection H as <- <-. exact (create_spare _ _ _ _ _ _ _ _ _ _ E).
  - destruct ((answer =? 0) || (answer =? EINPROGRESS)); [|injection H as <- <-; unfold spare, rejected, leaked, one; cbn [k_counter k_sess r_rejected r_failed_init negb andb]; lia].
    destruct (create_session c now id fd (negb (answer =? 0)) err m s) as [s1 r1] eqn:E. pose proof (create_spare _ _ _ _ _ _ _ _ _ _ E) as CS.
    destruct m as [|[|]]; injection H as <- <-; exact CS.
  - destruct (existsb (Z.eqb id) (k_freed s)); [discriminate|]. destruct (get id (k_sess s)) as [x|] eqn:G; [|auto].
    destruct (parse_connection c e x) as [y [w|]] eqn:P.
    + set (s0 := {| k_live := k_live (with_sess s (put id (w_x w) (k_sess s))); k_fd := k_fd (with_sess s (put id (w_x w) (k_sess s)));
             k_counter := k_counter (with_sess s (put id (w_x w) (k_sess s))); k_sess := k_sess (with_sess s (put id (w_x w) (k_sess s)));
             k_freed := k_freed (with_sess s (put id (w_x w) (k_sess s))); k_remove := k_remove (with_sess s (put id (w_x w) (k_sess s))) || w_remove w |}) in H.
      assert (N0 : NoDup (map fst (k_sess s0))) by (unfold s0; cbn [k_sess with_sess]; rewrite put_keys; exact N).
      assert (P0 : spare s0 = spare s /\ k_counter s0 = k_counter s) by (unfold spare, s0; cbn [k_sess k_counter with_sess]; rewrite put_len; lia).
      destruct (if state_eqb (x_state (w_x w)) Cleanup || w_close w then stream_close c id (w_x w) s0 else (s0, [])) as [s1 f1] eqn:E1.
      assert (G0 : get id (k_sess s0) = Some (w_x w)) by (unfold s0; cbn [k_sess with_sess]; rewrite get_put, Z.eqb_refl, G; reflexivity).
      assert (S1 : NoDup (map fst (k_sess s1)) /\ spare s1 = spare s0 /\ k_counter s1 <= k_counter s0).
      { destruct (state_eqb (x_state (w_x w)) Cleanup || w_close w); [split; [exact (proj1 (close_sub _ _ _ _ _ _ N0 E1)) | eapply close_spare; eauto] | injection E1 as <- <-; split; [exact N0|lia]]. }
      destruct S1 as (N1 & P1 & L1). destruct (if k_remove s1 then remove c s1 else (s1, [])) as [s2 f2] eqn:E2.
      assert (S2 : spare s2 = spare s1 /\ k_counter s2 <= k_counter s1) by (destruct (k_remove s1); [eapply remove_spare; eauto | injection E2 as <- <-; lia]).
      injection H as <- <-. unfold rejected, leaked, one. cbn [r_rejected r_failed_init negb andb]. lia.
    + injection H as <- <-. unfold rejected, leaked, nothing, one, spare. cbn [r_rejected r_failed_init negb andb k_counter k_sess with_sess]. rewrite put_len. lia.
  - destruct (existsb (Z.eqb id) (k_freed s)); [discriminate|]. destruct (get id (k_sess s)) as [x|] eqn:G; [|auto].
    destruct (x_due x) as [d|]; [|auto]. destruct (d <=? now); [|auto].
    destruct (stream_close c id x s) as [s1 f] eqn:E. exact (Q _ _ (close_spare _ _ _ _ _ _ _ G E) H).
  - destruct (get id (k_sess s)) as [x|] eqn:G; [|auto].
    destruct (stream_close c id x s) as [s1 f] eqn:E. exact (Q _ _ (close_spare _ _ _ _ _ _ _ G E) H).
  - destruct (get id (k_sess s)) as [x|] eqn:G; [|auto].
    injection H as <- <-. unfold rejected, leaked, one, spare. cbn [r_rejected r_failed_init negb andb k_counter k_sess with_sess]. rewrite put_len. lia.
  - destruct (remove c s) as [s1 f] eqn:E. exact (Q _ _ (remove_spare _ _ _ _ N E) H).
Qed.
Lemma run_spare : forall c os s s' ts seen, NoDup (map fst (k_sess s)) -> (forall id, In id (map fst (k_sess s)) -> In id seen) -> NoDup (seen ++ made os) -> run c os s = Some (s', ts) ->
  spare s' = spare s - count rejected ts + count leaked ts /\ (k_counter s <= c_allowed c -> k_counter s' <= c_allowed c).
Proof.
  intros c os; induction os as [|o r IH]; intros s s' ts seen N K ND H; cbn [run] in H; [injection H as <- <-; cbn [count]; lia|].
  destruct (step c o s) as [[s1 t]|] eqn:ST; [|discriminate]. destruct (run c r s1) as [[s2 t2]|] eqn:E2; [|discriminate]. injection H as <- <-.
  unfold made in ND. cbn [flat_map] in ND. fold (made r) in ND.
  assert (F : forall id, In id (makes o) -> ~ In id (map fst (k_sess s))).
  { intros id I1 I2. apply K in I2. apply in_split in I2. destruct I2 as (a & b & EQ). rewrite EQ, <- app_assoc in ND. cbn [app] in ND. apply NoDup_remove_2 in ND. apply ND. rewrite !in_app_iff. tauto. }
  assert (K1 : forall id, In id (map fst (k_sess s1)) -> In id (seen ++ makes o)).
  { intros id I1. apply in_app_iff. destruct (key_get _ _ I1) as [x G]. destruct (proj1 (proj2 (step_moved _ _ _ _ _ N F ST)) id x G) as [(x0 & G0 & _) | (_ & I2 & _)]; [left; apply K; eapply get_key; eauto | right; exact I2]. }
  rewrite app_assoc in ND. destruct (IH s1 s2 t2 (seen ++ makes o) (step_nodup _ _ _ _ _ N F ST) K1 ND E2) as [A B].
  destruct (step_spare _ _ _ _ _ N ST) as [A1 B1]. cbn [count]. unfold one in *. split; [lia|]. auto.
Qed.

(** as long as nobody was rejected there are no more sessions than allowed; every
    rejected connection may add one.  The full claim, never more than allowed, is
    refuted below. *)
Theorem C138_number_of_sessions_partial : forall c os s ts, 0 <= c_allowed c -> run c os fresh = Some (s, ts) -> NoDup (made os) ->
  zlen (k_sess s) <= c_allowed c + count rejected ts.
Proof.
  intros c os s ts A H N. destruct (run_spare c os fresh s ts []) as [E L]; auto; [constructor|].
  unfold spare in E. cbn [fresh k_counter k_sess] in E, L. change (zlen (@nil (Z * session))) with 0 in E. pose proof (count_nonneg leaked ts). specialize (L A). lia.
Qed.
(** a connection is served when fewer sessions than allowed exist, provided no
    init_session failed before *)
Theorem C138_served_partial : forall c os s ts now id fd err s' r, run c os fresh = Some (s, ts) -> NoDup (made os) -> count leaked ts = 0 -> zlen (k_sess s) < c_allowed c -> ~ In id (map fst (k_sess s)) ->
  step c (Accept now id fd true err (Made true)) s = Some (s', r) ->
  r_rejected r = false /\ exists x, get id (k_sess s') = Some x /\ x_state x = Active /\ x_fd x = fd /\ x_out x = [].
Proof.
  intros c os s ts now id fd err s' r H N LK LT NI ST. destruct (run_spare c os fresh s ts []) as [E L]; auto; [constructor|].
  unfold spare in E. cbn [fresh k_counter k_sess] in E. change (zlen (@nil (Z * session))) with 0 in E. pose proof (count_nonneg rejected ts).
  cbn [step create_session] in ST. replace (k_counter s <? c_allowed c) with true in ST by (symmetry; apply Z.ltb_lt; lia).
  injection ST as <- <-. cbn [k_sess r_rejected negb]. split; [reflexivity|]. rewrite get_snoc, (not_key _ _ NI), Z.eqb_refl. eexists. split; [reflexivity|]. cbn [x_state x_fd x_out]. auto.
Qed.

(** * C139: the end of sessions *)

(** the timer of a session: an event that sends bytes or takes input within the limit
    starts the timeout again, another one leaves it as it was *)
Definition takes_input (c : config) (e : io) (x : session) : Prop :=
  x_state x = Active /\ i_read e = true /\ exists d, i_recv e = Data d /\ i_mem e = true /\ zlen (x_in x ++ d) <= c_max c.
Lemma react_due : forall r w, x_due (w_x (react r w)) = x_due (w_x w) /\ w_sent (react r w) = w_sent w.
Proof. intros r w. unfold react. destruct (c_file r) as [[fd d]|]; auto. Qed.
Theorem C139_timeout_restarted_partial : forall c e x y w, parse_connection c e x = (y, Some w) -> x_wait x = false ->
  (w_sent w <> [] \/ takes_input c e x -> x_due (w_x w) = timer_set (i_now e) (c_timeout c)) /\
  (w_sent w = [] -> (forall d, i_recv e <> Data d) \/ i_read e = false -> x_due (w_x w) = x_due x).
Proof.
  intros c e x y w H WT. unfold parse_connection in H. assert (E0 : ev_connect e x = x) by (unfold ev_connect; rewrite WT; reflexivity). rewrite E0, WT in H. injection H as <- <-.
  set (w0 := start x). set (w1 := ev_read c e w0). set (w2 := ev_data e w1). set (w3 := ev_send c e w2). set (w4 := ev_file e w3). set (w5 := ev_under e w4).
  assert (D1 : (takes_input c e x -> x_due (w_x w1) = timer_set (i_now e) (c_timeout c)) /\ (((forall d, i_recv e <> Data d) \/ i_read e = false) -> x_due (w_x w1) = x_due x) /\ w_sent w1 = [] /\ (forall T, x_due x = T -> x_due (w_x w1) = T \/ x_due (w_x w1) = timer_set (i_now e) (c_timeout c))).
  { unfold w1, ev_read. cbn [start w0 w_x]. unfold w0. cbn [start w_x]. destruct (state_eqb (x_state x) Active) eqn:SE; cbn [andb].
    - destruct (i_read e) eqn:RD.
      + destruct (i_recv e) as [d| | |] eqn:RC.
        * destruct (i_mem e) eqn:ME; cbn [negb]; cbv zeta; wsimp.
          -- destruct (Z.ltb_spec (c_max c) (zlen (x_in x ++ d))) as [L|L]; wsimp.
             ++ repeat split; auto. { intros (_ & _ & d' & K & _ & L'). rewrite RC in K. injection K as <-. lia. }
             ++ repeat split; auto. { intros [K|K]; [exfalso; eapply K; reflexivity | congruence]. }
          -- repeat split; auto. { intros (_ & _ & d' & _ & K & _). congruence. }
        * destruct (react_due (i_eof e) (upd (start x) (with_state x SendAndQuit))) as [R1 R2]. cbn [upd w_x w_sent] in *. cbn [no_read x_due]. wsimp. rewrite R1, R2. repeat split; auto. { intros (_ & _ & d' & K & _). congruence. }
        * repeat split; auto. { intros (_ & _ & d' & K & _). congruence. }
        * repeat split; auto. { intros (_ & _ & d' & K & _). congruence. }
      + repeat split; auto. { intros (_ & K & _). congruence. }
    - repeat split; auto. { intros (K & _). rewrite K in SE. discriminate. } }
  assert (D2 : x_due (w_x w2) = x_due (w_x w1) /\ w_sent w2 = w_sent w1).
  { unfold w2, ev_data. destruct (state_eqb (x_state (w_x w1)) Active && ((0 <? zlen (x_in (w_x w1))) || x_first (w_x w1))); [|auto]. destruct (react_due (i_data e) w1) as [R1 R2]. wsimp. auto. }
  assert (D3 : (w_sent w3 <> [] \/ x_due (w_x w2) = timer_set (i_now e) (c_timeout c) -> x_due (w_x w3) = timer_set (i_now e) (c_timeout c)) /\
               (w_sent w3 = [] -> x_due (w_x w3) = x_due (w_x w2))).
  { destruct D1 as (_ & _ & S1 & _). destruct D2 as [_ S2]. unfold w3, ev_send. destruct (negb (state_eqb (x_state (w_x w2)) Cleanup)); cbn [andb]; [|rewrite S2, S1; intuition congruence].
    destruct (Z.ltb_spec 0 (zlen (x_out (w_x w2)))) as [L|L]; [|rewrite S2, S1; intuition congruence].
    destruct (i_write e); [|wsimp; rewrite S2, S1; intuition congruence].
    destruct (Z.ltb_spec 0 (i_send e)) as [L2|L2].
    - wsimp. split; [auto|]. rewrite S2, S1. cbn [app]. intro K. exfalso. destruct (x_out (w_x w2)) as [|z l]; [change (zlen (@nil Z)) with 0 in L; lia|].
      destruct (Z.to_nat (i_send e)) eqn:TN; [lia|]. discriminate.
    - destruct ((i_send e <? 0) && negb (i_later e)); wsimp; rewrite S2, S1; intuition congruence. }
  assert (D4 : x_due (w_x w4) = x_due (w_x w3) /\ w_sent w4 = w_sent w3).
  { unfold w4, ev_file. destruct (x_file (w_x w3)); [|auto]. destruct (state_eqb (x_state (w_x w3)) SendAndQuit && (zlen (x_out (w_x w3)) =? 0) && i_write e); [|auto]. destruct (i_copied e <=? 0); wsimp; auto. }
  assert (D5 : x_due (w_x w5) = x_due (w_x w4) /\ w_sent w5 = w_sent w4).
  { unfold w5, ev_under. destruct (state_eqb (x_state (w_x w4)) Active && (zlen (x_out (w_x w4)) =? 0)); [|auto]. destruct (i_under e); [apply react_due|auto]. }
  assert (D6 : x_due (w_x (ev_done w5)) = x_due (w_x w5) /\ w_sent (ev_done w5) = w_sent w5).
  { unfold ev_done. destruct ((zlen (x_out (w_x w5)) =? 0) && match x_file (w_x w5) with Some (_ :: _) => false | _ => true end); [|auto]. cbv zeta. destruct (state_eqb (x_state (with_write (w_x w5) false)) SendAndQuit); auto. }
  destruct D1 as (T1 & U1 & S1 & _). destruct D2 as [T2 S2]. destruct D3 as [T3 U3]. destruct D4 as [T4 S4]. destruct D5 as [T5 S5]. destruct D6 as [T6 S6].
  split.
  - intros K. rewrite T6, T5, T4. apply T3. destruct K as [K|K]; [left; rewrite S6, S5, S4 in K; exact K | right; rewrite T2; auto].
  - intros SE RC. rewrite T6, T5, T4, U3; [rewrite T2; auto|]. rewrite S6, S5, S4 in SE. exact SE.
Qed.

(** when the timer fires, the session is closed with its descriptor *)
Theorem C139_timeout_closes : forall c os s ts id x now s' r, run c os fresh = Some (s, ts) -> NoDup (made os) -> c_timeout c <> 0 -> get id (k_sess s) = Some x ->
  exists d, x_due x = Some d /\ (d <= now -> step c (Timer id now) s = Some (s', r) -> get id (k_sess s') = None /\ (x_fd x <> -1 -> In (x_fd x) (r_closed r))).
Proof.
  intros c os s ts id x now s' r H N T G.
  assert (D : x_due x <> None).
  { revert s ts H N id x G. intros s ts H N id x G. revert s ts H N id x G.
    assert (TR : forall o s, events (fun _ _ => True) c o s). { induction o as [|o t IH]; intro s; cbn [events]; [exact Logic.I|]. split; [destruct o; auto | intros; apply IH]. }
    intros s ts H N. apply (session_invariant (fun x => x_due x <> None) (fun _ _ => True) c) with (os := os) (ts := ts); auto.
    - intros x (n & fd & wait & out & st & ->). cbn [x_due]. unfold timer_set. destruct (Z.eqb_spec (c_timeout c) 0); [contradiction|discriminate].
    - intros x e x' A _ P. unfold parse_connection in P. destruct (x_wait (ev_connect e x)); [|discriminate]. injection P as <-. unfold ev_connect. destruct (x_wait x && i_write e); [|exact A]. destruct (i_conn e =? 0); exact A.
    - intros x e y w A _ P _.
      assert (TS : forall n, timer_set n (c_timeout c) <> None) by (intro n; unfold timer_set; destruct (Z.eqb_spec (c_timeout c) 0); [contradiction|discriminate]).
      unfold parse_connection in P. destruct (x_wait (ev_connect e x)); [discriminate|]. injection P as <- <-.
      assert (A0 : x_due (w_x (start (ev_connect e x))) <> None) by (cbn [start w_x]; unfold ev_connect; destruct (x_wait x && i_write e); [destruct (i_conn e =? 0)|]; exact A).
      set (w0 := start (ev_connect e x)) in *. clearbody w0.
      assert (A1 : x_due (w_x (ev_read c e w0)) <> None).
      { unfold ev_read. destruct (state_eqb (x_state (w_x w0)) Active && i_read e); [|exact A0]. destruct (i_recv e); [| |exact A0|exact A0].
        - destruct (negb (i_mem e)); [exact A0|]. cbv zeta. wsimp. destruct (c_max c <? zlen (x_in (w_x w0) ++ d)); wsimp; auto.
        - destruct (react_due (i_eof e) (upd w0 (with_state (w_x w0) SendAndQuit))) as [R1 _]. wsimp. rewrite R1. exact A0. }
      set (w1 := ev_read c e w0) in *. clearbody w1.
      assert (A2 : x_due (w_x (ev_data e w1)) <> None).
      { unfold ev_data. destruct (state_eqb (x_state (w_x w1)) Active && ((0 <? zlen (x_in (w_x w1))) || x_first (w_x w1))); [|exact A1]. wsimp. rewrite (proj1 (react_due _ _)). exact A1. }
      set (w2 := ev_data e w1) in *. clearbody w2.
      assert (A3 : x_due (w_x (ev_send c e w2)) <> None).
      { unfold ev_send. destruct (negb (state_eqb (x_state (w_x w2)) Cleanup) && (0 <? zlen (x_out (w_x w2)))); [|exact A2]. destruct (i_write e); [|exact A2].
        destruct (0 <? i_send e); [wsimp; apply TS|]. destruct ((i_send e <? 0) && negb (i_later e)); exact A2. }
      set (w3 := ev_send c e w2) in *. clearbody w3.
      assert (A4 : x_due (w_x (ev_file e w3)) <> None).
      { unfold ev_file. destruct (x_file (w_x w3)); [|exact A3]. destruct (state_eqb (x_state (w_x w3)) SendAndQuit && (zlen (x_out (w_x w3)) =? 0) && i_write e); [|exact A3]. destruct (i_copied e <=? 0); exact A3. }
      set (w4 := ev_file e w3) in *. clearbody w4.
      assert (A5 : x_due (w_x (ev_under e w4)) <> None).
      { unfold ev_under. destruct (state_eqb (x_state (w_x w4)) Active && (zlen (x_out (w_x w4)) =? 0)); [|exact A4]. destruct (i_under e); [rewrite (proj1 (react_due _ _))|]; exact A4. }
      unfold ev_done. destruct ((zlen (x_out (w_x (ev_under e w4))) =? 0) && match x_file (w_x (ev_under e w4)) with Some (_ :: _) => false | _ => true end); [|exact A5]. cbv zeta.
      destruct (state_eqb (x_state (with_write (w_x (ev_under e w4)) false)) SendAndQuit); exact A5. }
  destruct (x_due x) as [d|] eqn:DU; [|congruence]. exists d. split; [reflexivity|]. intros LE ST. cbn [step] in ST. destruct (existsb (Z.eqb id) (k_freed s)); [discriminate|]. rewrite G, DU in ST.
  replace (d <=? now) with true in ST by (symmetry; apply Z.leb_le; exact LE). unfold stream_close in ST. injection ST as <- <-. cbn [k_sess closing r_closed].
  destruct (run_traced c os fresh s ts [] fresh_traced N H) as (ND & _). rewrite (get_del _ _ _ ND), Z.eqb_refl. split; [reflexivity|].
  intro NF. apply in_app_iff. right. unfold fd_close. destruct (Z.eqb_spec (x_fd x) (-1)); [contradiction|left; reflexivity].
Qed.

(** a removed socket is not used any more and keeps no session without pending output *)
Lemma close_all_left : forall c l s s' f, NoDup (map fst l) -> NoDup (map fst (k_sess s)) -> (forall id x, In (id, x) l -> get id (k_sess s) = Some x) -> close_all c l s = (s', f) ->
  forall id x, get id (k_sess s') = Some x -> In (id, x) l -> x_out x <> [].
Proof.
  intros c l; induction l as [|[i y] r IH]; intros s s' f NL N A H id x G I1; [destruct I1|]. cbn [close_all] in H. inversion NL; subst.
  destruct (zlen (x_out y) =? 0) eqn:Z0.
  - destruct (stream_close c i y s) as [s1 f1] eqn:E1. destruct (close_all c r s1) as [s2 f2] eqn:E2. injection H as <- <-. destruct (close_sub _ _ _ _ _ _ N E1) as [N1 _].
    assert (A1 : forall id x, In (id, x) r -> get id (k_sess s1) = Some x).
    { intros j z I2. injection E1 as <- <-. cbn [k_sess]. rewrite (get_del _ _ _ N). destruct (Z.eqb_spec j i) as [M|M]; [subst; exfalso; apply H2; apply in_map_iff; exists (i, z); auto | apply A; right; exact I2]. }
    destruct I1 as [K|K]; [|exact (IH s1 s2 f2 H3 N1 A1 E2 id x G K)].
    injection K as -> ->. destruct (close_all_sub _ _ _ _ _ N1 E2) as [_ SB]. apply SB in G. injection E1 as <- <-. cbn [k_sess] in G. rewrite (get_del _ _ _ N), Z.eqb_refl in G. discriminate.
  - destruct I1 as [K|K]; [injection K as -> ->; intro K; rewrite K in Z0; discriminate|]. refine (IH s s' f H3 N _ H id x G K). intros; apply A; right; assumption.
Qed.
Theorem C139_removed_partial : forall c os s ts force s' r, run c os fresh = Some (s, ts) -> NoDup (made os) -> k_live s = true -> step c (Remove force) s = Some (s', r) ->
  k_live s' = false /\ (forall id x, get id (k_sess s') = Some x -> get id (k_sess s) = Some x /\ x_out x <> []).
Proof.
  intros c os s ts force s' r H N L ST. destruct (run_traced c os fresh s ts [] fresh_traced N H) as (ND & _). cbn [step] in ST. destruct (remove c s) as [s1 f] eqn:E. injection ST as <- <-.
  pose proof (proj2 (remove_sub _ _ _ _ ND E)) as SB. unfold remove in E. rewrite L in E. cbn [negb] in E. destruct (close_all c (k_sess s) s) as [s2 f2] eqn:E2. injection E as <- <-. cbn [k_live k_sess] in *. split; [reflexivity|].
  intros id x G. split; [auto|]. refine (close_all_left _ _ _ _ _ ND ND (fun i z I1 => In_get _ _ _ ND I1) E2 id x G _). apply get_In. auto.
Qed.

(** * C140: descriptors *)

(** the descriptors the program has open, after what a step shows *)
Definition minus (l d : list Z) : list Z := filter (fun x => negb (existsb (Z.eqb x) d)) l.
Definition after (own : list Z) (r : report) : list Z := minus (own ++ r_opened r) (r_closed r).
(** the system gives descriptors that are not open *)
Fixpoint kernel (own : list Z) (h : list (op * report)) : Prop :=
  match h with [] => True | (_, r) :: t => (forall fd, In fd (r_opened r) -> 0 <= fd /\ ~ In fd own) /\ kernel (after own r) t end.
(** only descriptors that are open because of the socket are closed, each once *)
Fixpoint closes_own (own : list Z) (h : list (op * report)) : Prop :=
  match h with [] => True | (_, r) :: t => NoDup (r_closed r) /\ incl (r_closed r) (own ++ r_opened r) /\ closes_own (after own r) t end.
Definition open_after (h : list (op * report)) : list Z := fold_left (fun own p => after own (snd p)) h [].

Definition fds (s : sock) : list Z := (if k_live s then [k_fd s] else []) ++ map (fun p => x_fd (snd p)) (k_sess s).
Lemma put_fds : forall id x y l, get id l = Some x -> x_fd y = x_fd x -> map (fun p : Z * session => x_fd (snd p)) (put id y l) = map (fun p => x_fd (snd p)) l.
Proof.
  intros id x y l; induction l as [|[i z] r IH]; cbn [get put map]; intros G E; [reflexivity|]. destruct (i =? id); cbn [map snd]; [injection G as <-; congruence | rewrite IH; auto].
Qed.
Lemma del_fds : forall id x l, get id l = Some x -> Permutation (map (fun p : Z * session => x_fd (snd p)) l) (x_fd x :: map (fun p => x_fd (snd p)) (del id l)).
Proof.
  intros id x l; induction l as [|[i z] r IH]; cbn [get del map snd]; intros G; [discriminate|]. destruct (i =? id); cbn [map snd]; [injection G as <-; reflexivity|].
  etransitivity; [apply perm_skip; apply IH; exact G | apply perm_swap].
Qed.
Lemma close_fds : forall c id x y s s' f, c_http c = false -> get id (k_sess s) = Some y -> x_fd y = x_fd x -> 0 <= x_fd x -> stream_close c id x s = (s', f) -> Permutation (fds s) (f ++ fds s') /\ k_live s' = k_live s.
Proof.
  intros c id x y s s' f HT G E NN H. unfold stream_close in H. rewrite HT in H. injection H as <- <-. unfold fds, fd_close. cbn [k_live k_fd k_sess app]. split; [|reflexivity].
  destruct (Z.eqb_spec (x_fd x) (-1)); [lia|]. cbn [app]. rewrite (del_fds _ _ _ G), E. symmetry. apply Permutation_middle.
Qed.
Lemma fds_nonneg : forall s id x, (forall fd, In fd (fds s) -> 0 <= fd) -> get id (k_sess s) = Some x -> 0 <= x_fd x.
Proof. intros s id x A G. apply A. unfold fds. apply in_app_iff. right. apply in_map_iff. exists (id, x). split; [reflexivity | apply get_In; exact G]. Qed.
Lemma close_all_fds : forall c l s s' f, c_http c = false -> (forall fd, In fd (fds s) -> 0 <= fd) -> NoDup (map fst l) -> NoDup (map fst (k_sess s)) -> (forall id x, In (id, x) l -> get id (k_sess s) = Some x) -> close_all c l s = (s', f) ->
  Permutation (fds s) (f ++ fds s') /\ k_live s' = k_live s /\ k_fd s' = k_fd s.
Proof.
  intros c l; induction l as [|[i y] r IH]; intros s s' f HT NN NL N A H; cbn [close_all] in H; [injection H as <- <-; cbn [app]; auto|]. inversion NL; subst.
  destruct (zlen (x_out y) =? 0); [|refine (IH s s' f HT NN H3 N _ H); intros; apply A; right; assumption].
  destruct (stream_close c i y s) as [s1 f1] eqn:E1. destruct (close_all c r s1) as [s2 f2] eqn:E2. injection H as <- <-.
  pose proof (A i y (or_introl eq_refl)) as G. destruct (close_fds _ _ _ _ _ _ _ HT G eq_refl (fds_nonneg _ _ _ NN G) E1) as [P1 L1].
  destruct (close_sub _ _ _ _ _ _ N E1) as [N1 _].
  assert (A1 : forall id x, In (id, x) r -> get id (k_sess s1) = Some x).
  { intros j z I2. injection E1 as <- <-. cbn [k_sess]. rewrite (get_del _ _ _ N). destruct (Z.eqb_spec j i) as [M|M]; [subst; exfalso; apply H2; apply in_map_iff; exists (i, z); auto | apply A; right; exact I2]. }
  assert (NN1 : forall fd, In fd (fds s1) -> 0 <= fd) by (intros fd I2; apply NN; eapply Permutation_in; [symmetry; exact P1 | apply in_app_iff; right; exact I2]).
  destruct (IH s1 s2 f2 HT NN1 H3 N1 A1 E2) as (P2 & L2 & K2). split; [|split; [congruence | injection E1 as <- <-; exact K2]].
  rewrite P1, P2, app_assoc. reflexivity.
Qed.
Lemma remove_fds : forall c s s' f, c_http c = false -> (forall fd, In fd (fds s) -> 0 <= fd) -> NoDup (map fst (k_sess s)) -> remove c s = (s', f) -> Permutation (fds s) (f ++ fds s').
Proof.
  intros c s s' f HT NN N H. unfold remove in H. destruct (k_live s) eqn:L; cbn [negb] in H; [|injection H as <- <-; reflexivity].
  destruct (close_all c (k_sess s) s) as [s1 f1] eqn:E. injection H as <- <-.
  destruct (close_all_fds _ _ _ _ _ HT NN N N (fun i z I1 => In_get _ _ _ N I1) E) as (P & L1 & K). rewrite P. unfold fds. rewrite L1, L. cbn [k_live k_sess app].
  assert (NF : 0 <= k_fd s1) by (rewrite K; apply NN; unfold fds; rewrite L; left; reflexivity).
  unfold fd_close. destruct (Z.eqb_spec (k_fd s1) (-1)); [lia|]. rewrite <- app_assoc. reflexivity.
Qed.

(** operations of a server: connections are accepted, none are made *)
Definition server_op (o : op) : Prop := match o with AddServer _ _ | AddClient | ConnectTo _ _ _ _ _ _ => False | _ => True end.
Definition makes_session (o : op) : bool := match o with Accept _ _ _ true _ (Made true) => true | Accept _ _ _ false _ _ => true | Accept _ _ _ _ _ _ => false | _ => true end.
Lemma step_fds : forall c o s s' r, c_http c = false -> server_op o -> (forall fd, In fd (fds s) -> 0 <= fd) -> NoDup (map fst (k_sess s)) -> (forall fd, In fd (r_opened r) -> 0 <= fd) -> step c o s = Some (s', r) ->
  exists leak, Permutation (fds s ++ r_opened r) (r_closed r ++ fds s' ++ leak) /\ (makes_session o = true -> leak = []).
Proof.
  intros c o s s' r HT SV NN N NO H.
  assert (Q : forall s1 f, Permutation (fds s) (f ++ fds s1) -> Some (s1, closing f) = Some (s', r) -> exists leak, Permutation (fds s ++ r_opened r) (r_closed r ++ fds s' ++ leak) /\ (makes_session o = true -> leak = [])).
  { intros s1 f P E. injection E as <- <-. exists []. cbn [closing r_opened r_closed]. rewrite !app_nil_r. auto. }
  assert (Q0 : Some (s, nothing) = Some (s', r) -> exists leak, Permutation (fds s ++ r_opened r) (r_closed r ++ fds s' ++ leak) /\ (makes_session o = true -> leak = [])).
  { intro E. injection E as <- <-. exists []. cbn [nothing r_opened r_closed app]. rewrite !app_nil_r. auto. }
  destruct o; cbn [step server_op] in *; try contradiction.
  - destruct acl.
    + unfold create_session in H. destruct m as [|[|]]; injection H as <- <-; cbn [r_opened r_closed app makes_session].
      * exists [fd]. split; [reflexivity|discriminate].
      * exists []. split; [|auto]. unfold fds. cbn [k_live k_fd k_sess]. rewrite map_app. cbn [map snd x_fd]. rewrite app_nil_r, app_assoc. reflexivity.
      * exists [fd]. split; [reflexivity|discriminate].
    + injection H as <- <-. exists []. cbn [r_opened r_closed]. rewrite app_nil_r. split; [|auto]. apply Permutation_app_comm.
  - destruct (existsb (Z.eqb id) (k_freed s)); [discriminate|]. destruct (get id (k_sess s)) as [x|] eqn:G; [|auto].
    destruct (parse_connection c e x) as [y [w|]] eqn:P.
    + destruct (parse_flow _ _ _ _ _ P) as [_ FD].
      set (s0 := {| k_live := k_live (with_sess s (put id (w_x w) (k_sess s))); k_fd := k_fd (with_sess s (put id (w_x w) (k_sess s)));
             k_counter := k_counter (with_sess s (put id (w_x w) (k_sess s))); k_sess := k_sess (with_sess s (put id (w_x w) (k_sess s)));
             k_freed := k_freed (with_sess s (put id (w_x w) (k_sess s))); k_remove := k_remove (with_sess s (put id (w_x w) (k_sess s))) || w_remove w |}) in H.
      assert (N0 : NoDup (map fst (k_sess s0))) by (unfold s0; cbn [k_sess with_sess]; rewrite put_keys; exact N).
      assert (F0 : fds s0 = fds s) by (unfold fds, s0; cbn [k_live k_fd k_sess with_sess]; rewrite (put_fds _ _ _ _ G FD); reflexivity).
      destruct (if state_eqb (x_state (w_x w)) Cleanup || w_close w then stream_close c id (w_x w) s0 else (s0, [])) as [s1 f1] eqn:E1.
      assert (G0 : get id (k_sess s0) = Some (w_x w)) by (unfold s0; cbn [k_sess with_sess]; rewrite get_put, Z.eqb_refl, G; reflexivity).
      assert (S1 : NoDup (map fst (k_sess s1)) /\ Permutation (fds s0) (f1 ++ fds s1)).
      { destruct (state_eqb (x_state (w_x w)) Cleanup || w_close w).
        - split; [exact (proj1 (close_sub _ _ _ _ _ _ N0 E1))|]. refine (proj1 (close_fds _ _ _ _ _ _ _ HT G0 eq_refl _ E1)). rewrite FD. eapply fds_nonneg; eauto.
        - injection E1 as <- <-. auto. }
      destruct S1 as (N1 & P1). destruct (if k_remove s1 then remove c s1 else (s1, [])) as [s2 f2] eqn:E2.
      assert (S2 : Permutation (fds s1) (f2 ++ fds s2)).
      { destruct (k_remove s1); [|injection E2 as <- <-; reflexivity]. eapply remove_fds; eauto. intros fd I1. apply NN. rewrite <- F0. eapply Permutation_in; [symmetry; exact P1 | apply in_app_iff; right; exact I1]. }
      injection H as <- <-. exists []. cbn [r_opened r_closed]. rewrite !app_nil_r, <- F0, P1, S2, app_assoc. auto.
    + injection H as <- <-. exists []. cbn [nothing r_opened r_closed app]. rewrite !app_nil_r. split; [|auto].
      unfold parse_connection in P. destruct (x_wait (ev_connect e x)); [|discriminate]. injection P as <-.
      unfold fds. cbn [k_live k_fd k_sess with_sess]. rewrite (put_fds _ _ _ _ G (proj2 (connect_same e x))). reflexivity.
  - destruct (existsb (Z.eqb id) (k_freed s)); [discriminate|]. destruct (get id (k_sess s)) as [x|] eqn:G; [|auto].
    destruct (x_due x) as [d|]; [|auto]. destruct (d <=? now); [|auto].
    destruct (stream_close c id x s) as [s1 f] eqn:E. exact (Q _ _ (proj1 (close_fds _ _ _ _ _ _ _ HT G eq_refl (fds_nonneg _ _ _ NN G) E)) H).
  - destruct (get id (k_sess s)) as [x|] eqn:G; [|auto].
    destruct (stream_close c id x s) as [s1 f] eqn:E. exact (Q _ _ (proj1 (close_fds _ _ _ _ _ _ _ HT G eq_refl (fds_nonneg _ _ _ NN G) E)) H).
  - destruct (get id (k_sess s)) as [x|] eqn:G; [|auto]. injection H as <- <-. exists []. cbn [r_opened r_closed app]. rewrite !app_nil_r. split; [|auto].
    unfold fds. cbn [k_live k_fd k_sess with_sess]. rewrite (put_fds _ x); auto.
  - destruct (remove c s) as [s1 f] eqn:E. exact (Q _ _ (remove_fds _ _ _ _ HT NN N E) H).
Qed.
Lemma in_minus : forall x l d, In x (minus l d) <-> In x l /\ ~ In x d.
Proof.
  intros x l d. unfold minus. rewrite filter_In, negb_true_iff. split; intros [A B]; (split; [exact A|]).
  - intro K. assert (existsb (Z.eqb x) d = true) by (apply existsb_exists; exists x; split; [exact K | apply Z.eqb_refl]). congruence.
  - destruct (existsb (Z.eqb x) d) eqn:E; [|reflexivity]. apply existsb_exists in E. destruct E as (z & I1 & E). apply Z.eqb_eq in E. subst z. contradiction.
Qed.
Lemma nodup_app_l : forall (a b : list Z), NoDup (a ++ b) -> NoDup a.
Proof. intros a b; induction a as [|x a IH]; cbn [app]; intro N; [constructor|]. inversion N; subst. constructor; [intro K; apply H1; apply in_app_iff; auto | auto]. Qed.
Lemma nodup_app_r : forall (a b : list Z), NoDup (a ++ b) -> NoDup b.
Proof. intros a b; induction a as [|x a IH]; cbn [app]; intro N; [exact N|]. inversion N; subst. auto. Qed.
Lemma nodup_app_disj : forall (a b : list Z) x, NoDup (a ++ b) -> In x a -> ~ In x b.
Proof. intros a b x; induction a as [|y a IH]; cbn [app]; intros N I1 I2; [destruct I1|]. inversion N; subst. destruct I1 as [->|I1]; [apply H1; apply in_app_iff; auto | exact (IH H2 I1 I2)]. Qed.
Lemma run_fds : forall c os s s' ts own seen, c_http c = false -> Forall server_op os -> run c os s = Some (s', ts) ->
  (forall fd, In fd (fds s) -> 0 <= fd) -> NoDup (fds s) -> incl (fds s) own -> NoDup (map fst (k_sess s)) -> (forall id, In id (map fst (k_sess s)) -> In id seen) -> NoDup (seen ++ made os) -> kernel own ts ->
  closes_own own ts /\ incl (fds s') (fold_left (fun own p => after own (snd p)) ts own) /\
  (Forall (fun o => makes_session o = true) os -> incl own (fds s) -> incl (fold_left (fun own p => after own (snd p)) ts own) (fds s')).
Proof.
  intros c os; induction os as [|o r IH]; intros s s' ts own seen HT SV H NN NF IO N K ND KE; cbn [run] in H; [injection H as <- <-; cbn [closes_own fold_left]; auto|].
  destruct (step c o s) as [[s1 t]|] eqn:ST; [|discriminate]. destruct (run c r s1) as [[s2 t2]|] eqn:E2; [|discriminate]. injection H as <- <-.
  cbn [kernel] in KE. destruct KE as [KE1 KE2]. pose proof (Forall_inv SV) as SV1. pose proof (Forall_inv_tail SV) as SV2. unfold made in ND. cbn [flat_map] in ND. fold (made r) in ND.
  assert (F : forall id, In id (makes o) -> ~ In id (map fst (k_sess s))).
  { intros id I1 I2. apply K in I2. apply in_split in I2. destruct I2 as (a & b & EQ). rewrite EQ, <- app_assoc in ND. cbn [app] in ND. apply NoDup_remove_2 in ND. apply ND. rewrite !in_app_iff. tauto. }
  assert (K1 : forall id, In id (map fst (k_sess s1)) -> In id (seen ++ makes o)).
  { intros id I1. apply in_app_iff. destruct (key_get _ _ I1) as [x G]. destruct (proj1 (proj2 (step_moved _ _ _ _ _ N F ST)) id x G) as [(x0 & G0 & _) | (_ & I2 & _)]; [left; apply K; eapply get_key; eauto | right; exact I2]. }
  assert (NO : forall fd, In fd (r_opened t) -> 0 <= fd) by (intros fd I1; apply KE1; exact I1).
  destruct (step_fds _ _ _ _ _ HT SV1 NN N NO ST) as (leak & P & LK).
  assert (ONE : exists l, r_opened t = l /\ (l = [] \/ exists a, l = [a])).
  { exists (r_opened t). split; [reflexivity|]. clear - ST SV1. destruct o; cbn [step server_op] in *; try contradiction.
    - destruct acl; [|injection ST as <- <-; right; eexists; reflexivity]. unfold create_session in ST. destruct m as [|[|]]; injection ST as <- <-; right; eexists; reflexivity.
    - destruct (existsb (Z.eqb id) (k_freed s)); [discriminate|]. destruct (get id (k_sess s)); [|injection ST as <- <-; left; reflexivity]. destruct (parse_connection c e s0) as [y [w|]].
      + match type of ST with (let '(_, _) := ?X in _) = _ => destruct X as [a b] end. match type of ST with (let '(_, _) := ?X in _) = _ => destruct X as [a2 b2] end. injection ST as <- <-. left; reflexivity.
      + injection ST as <- <-. left; reflexivity.
    - destruct (existsb (Z.eqb id) (k_freed s)); [discriminate|]. destruct (get id (k_sess s)); [|injection ST as <- <-; left; reflexivity]. destruct (x_due s0); [|injection ST as <- <-; left; reflexivity]. destruct (z <=? now); injection ST as <- <-; left; reflexivity.
    - destruct (get id (k_sess s)); injection ST as <- <-; left; reflexivity.
    - destruct (get id (k_sess s)); injection ST as <- <-; left; reflexivity.
    - destruct (remove c s); injection ST as <- <-; left; reflexivity. }
  assert (NX : NoDup (fds s ++ r_opened t)).
  { destruct ONE as (l & E & [->|[a ->]]); rewrite E; [rewrite app_nil_r; exact NF|]. apply (Permutation_NoDup (l := a :: fds s)); [apply Permutation_cons_append|]. constructor; [|exact NF].
    intro K2. apply (proj2 (KE1 a ltac:(rewrite E; left; reflexivity))). apply IO. exact K2. }
  pose proof (Permutation_NoDup P NX) as NP. pose proof (nodup_app_r _ _ NP) as NP2.
  assert (IN : forall z, In z (r_closed t ++ fds s1 ++ leak) -> In z (own ++ r_opened t)).
  { intros z I1. apply (Permutation_in _ (Permutation_sym P)) in I1. apply in_app_iff in I1. apply in_app_iff. destruct I1; auto. }
  assert (A1 : incl (fds s1) (after own t)).
  { intros z I1. unfold after. apply in_minus. split; [apply IN; rewrite !in_app_iff; tauto|]. intro I2. apply (nodup_app_disj _ _ _ NP I2). apply in_app_iff. auto. }
  assert (NN1 : forall fd, In fd (fds s1) -> 0 <= fd).
  { intros z I1. assert (I2 : In z (fds s ++ r_opened t)) by (apply (Permutation_in _ (Permutation_sym P)); rewrite !in_app_iff; tauto). apply in_app_iff in I2. destruct I2; auto. }
  rewrite app_assoc in ND.
  destruct (IH s1 s2 t2 (after own t) (seen ++ makes o) HT SV2 E2 NN1 (nodup_app_l _ _ NP2) A1 (step_nodup _ _ _ _ _ N F ST) K1 ND KE2) as (B1 & B2 & B3).
  cbn [closes_own fold_left snd]. split; [|split; [exact B2|]].
  - split; [exact (nodup_app_l _ _ NP)|]. split; [|exact B1]. intros z I1. apply IN. apply in_app_iff. auto.
  - intros MS IO2. apply B3; [exact (Forall_inv_tail MS)|]. intros z I1. unfold after in I1. apply in_minus in I1. destruct I1 as [I1 I2].
    assert (I3 : In z (fds s ++ r_opened t)) by (apply in_app_iff in I1; apply in_app_iff; destruct I1; auto).
    apply (Permutation_in _ P) in I3. rewrite (LK (Forall_inv MS)), app_nil_r in I3. apply in_app_iff in I3. destruct I3; [contradiction|assumption].
Qed.

(** a server socket whose cleanup callback closes nothing: only descriptors that belong
    to the socket are closed, and each once; those of the sessions stay open as long as
    the sessions exist; nothing stays open for ended sessions unless a session could
    not be made *)
Theorem C140_server_descriptors_partial : forall c fd os s ts, c_http c = false -> Forall server_op os -> NoDup (made os) -> run c (AddServer fd true :: os) fresh = Some (s, ts) -> kernel [] ts ->
  closes_own [] ts /\
  (forall id x, get id (k_sess s) = Some x -> In (x_fd x) (open_after ts)) /\
  (Forall (fun o => makes_session o = true) os -> k_live s = false -> k_sess s = [] -> open_after ts = []).
Proof.
  intros c fd os s ts HT SV ND H KE. cbn [run step fresh k_sess] in H. rewrite zlen_nil in H. change (0 =? 0) with true in H. cbv iota in H. unfold add_server in H.
  match type of H with context [run c os ?S0] => set (s0 := S0) in H end. destruct (run c os s0) as [[s1 t1]|] eqn:E; [|discriminate]. injection H as <- <-.
  cbn [kernel] in KE. destruct KE as [KE1 KE2]. cbn [r_opened] in KE1. pose proof (proj1 (KE1 fd (or_introl eq_refl))) as NN.
  assert (A0 : after [] {| r_opened := [fd]; r_closed := []; r_rejected := false; r_failed_init := false; r_written := []; r_sent := []; r_copied := [] |} = [fd]) by reflexivity.
  rewrite A0 in KE2. assert (F0 : fds s0 = [fd]) by reflexivity.
  destruct (run_fds c os s0 s1 t1 [fd] [] HT SV E) as (B1 & B2 & B3); auto; rewrite ?F0.
  - intros z [<-|[]]. exact NN.
  - repeat constructor. intros [].
  - apply incl_refl.
  - constructor.
  - split; [|split].
    + cbn [closes_own r_closed r_opened]. split; [constructor|]. split; [intros z []|]. rewrite A0. exact B1.
    + intros id x G. unfold open_after. cbn [fold_left snd]. rewrite A0. apply B2. unfold fds. apply in_app_iff. right. apply in_map_iff. exists (id, x). split; [reflexivity | apply get_In; exact G].
    + intros MS L KS. assert (FI : fds s1 = []) by (unfold fds; rewrite L, KS; reflexivity). specialize (B3 MS). rewrite F0, FI in B3. specialize (B3 (incl_refl _)).
      unfold open_after. cbn [fold_left snd]. rewrite A0. destruct (fold_left (fun own p => after own (snd p)) t1 [fd]) as [|z l]; [reflexivity|]. destruct (B3 z (or_introl eq_refl)).
Qed.

(** * Examples and refutations *)

Definition idle : reaction := {| c_take := 0; c_out := []; c_file := None; c_close := false; c_remove := false; c_state := Active |}.
Definition say (take : Z) (d : bytes) (st : state) : reaction := {| c_take := take; c_out := d; c_file := None; c_close := false; c_remove := false; c_state := st |}.
Definition on_read (now : Z) (d : bytes) (r : reaction) : io :=
  {| i_now := now; i_read := true; i_write := false; i_conn := 0; i_recv := Data d; i_mem := true; i_error := [0]; i_eof := idle; i_data := r; i_send := 0; i_later := false; i_copied := 1; i_under := None |}.
Definition on_write (now n : Z) : io :=
  {| i_now := now; i_read := false; i_write := true; i_conn := 0; i_recv := Again; i_mem := true; i_error := [0]; i_eof := idle; i_data := idle; i_send := n; i_later := true; i_copied := 1; i_under := None |}.
Definition srv : config := {| c_allowed := 2; c_timeout := 120000; c_max := 4096; c_first := false; c_http := false |}.
Definition http : config := {| c_allowed := 10; c_timeout := 120000; c_max := 65536; c_first := false; c_http := true |}.
Definition start_server : op := AddServer 5 true.
Definition conn (id fd : Z) : op := Accept 0 id fd true [83] (Made true).
Definition served (id : Z) : list op := [Event id (on_write 1 0); Event id (on_read 2 [71; 69; 84] (say 3 [49; 50; 51] SendAndQuit)); Event id (on_write 3 2); Event id (on_write 4 5)].
Definition view (r : option (sock * list (op * report))) : option (bool * Z * list (Z * state * bool) * list (list Z) * list (list Z)) :=
  match r with
  | Some (s, ts) => Some (k_live s, k_counter s, map (fun p => (fst p, x_state (snd p), x_write (snd p))) (k_sess s), map (fun p => r_closed (snd p)) ts, map (fun p => r_sent (snd p)) ts)
  | None => None
  end.

(** a request is answered in two pieces and the session ends *)
Example C137_ex : let os := start_server :: conn 1 7 :: served 1 in
  view (run srv os fresh) = Some (true, 0, [], [[]; []; []; []; []; [7]], [[]; []; []; []; [49; 50]; [51]]) /\ NoDup (made os) /\
  (exists s ts, run srv (start_server :: conn 1 7 :: firstn 3 (served 1)) fresh = Some (s, ts) /\ k_remove s = false /\ match get 1 (k_sess s) with Some x => x_out x = [51] /\ x_write x = true | None => False end) /\
  smooth (on_write 4 5) /\ events polled srv os fresh /\ events blocks srv os fresh /\
  (exists w, w_copied (ev_file (on_write 4 5) w) = [9] /\ x_file (w_x w) = Some [9; 8]).
Proof.
  cbv zeta. split; [vm_compute; reflexivity|]. split; [repeat constructor; cbn; tauto|]. split; [eexists; eexists; vm_compute; auto|].
  split; [split; [exact Logic.I|]; repeat split; try discriminate; cbn; lia|].
  assert (H : forall E : session -> io -> Prop, (forall x e, In e [on_write 1 0; on_read 2 [71; 69; 84] (say 3 [49; 50; 51] SendAndQuit); on_write 3 2; on_write 4 5] -> x_write x = i_write e \/ x_write x = true -> E x e) ->
    events E srv (start_server :: conn 1 7 :: served 1) fresh).
  { intros E A. repeat (split; [first [exact Logic.I | intros x G; vm_compute in G; injection G as <-; apply A; [cbn; tauto | cbn; auto]] | intros ? ? G; vm_compute in G; injection G as <- <-]). exact Logic.I. }
  split; [apply H; intros x e I1 W; split; [destruct W as [W|W]; rewrite W; auto | destruct I1 as [<-|[<-|[<-|[<-|[]]]]]; reflexivity]|].
  split; [apply H; intros x e I1 _; unfold blocks; destruct I1 as [<-|[<-|[<-|[<-|[]]]]]; vm_compute; (reflexivity || exact Logic.I || discriminate)|].
  exists (start {| x_fd := 7; x_copy := 9; x_in := []; x_out := []; x_file := Some [9; 8]; x_state := SendAndQuit; x_wait := false; x_first := false; x_write := true; x_read := true; x_due := None |}).
  vm_compute. auto.
Qed.
(** two sessions, a third connection is told so *)
Example C138_ex : let os := [start_server; conn 1 7; conn 2 8; conn 3 9] in NoDup (made os) /\
  match run srv os fresh with
  | Some (s, ts) => map (fun p => (fst p, x_state (snd p), x_out (snd p))) (k_sess s) = [(1, Active, []); (2, Active, []); (3, SendAndQuit, [83])] /\ count rejected ts = 1 /\ count leaked ts = 0
  | None => False
  end.
Proof. split; [repeat constructor; cbn; intuition discriminate | vm_compute; auto]. Qed.
(** a session without traffic ends after the timeout *)
Example C139_ex : view (run srv [start_server; conn 1 7; Event 1 (on_write 1 0); Timer 1 119999; Timer 1 120000] fresh) = Some (true, 0, [], [[]; []; []; []; [7]], [[]; []; []; []; []]) /\
  view (run srv [start_server; conn 1 7; conn 2 8; Write 2 [65]; Remove false] fresh) = Some (false, 1, [(2, Active, true)], [[]; []; []; []; [7; 5]], [[]; []; []; []; []]).
Proof. split; vm_compute; reflexivity. Qed.
Example C140_ex : let os := [conn 1 7; Accept 0 2 8 false [] (Made true); conn 3 8; Close 1; conn 4 7; Remove true] in Forall server_op os /\ NoDup (made os) /\ Forall (fun o => makes_session o = true) os /\
  match run srv (start_server :: os) fresh with Some (s, ts) => kernel [] ts /\ k_live s = false /\ k_sess s = [] | None => False end.
Proof.
  cbv zeta. split; [repeat constructor|]. split; [repeat constructor; cbn; intuition discriminate|]. split; [repeat constructor|].
  vm_compute. repeat split; try (intros; intuition (subst; discriminate)); auto.
Qed.

(** *** Refutations *)

(** C137: the callback for an empty buffer is also called in events that do not allow to
    write.  Its output is not sent then: nobody is interested in writing. *)
Theorem C137_output_is_polled_refuted : exists c os s ts x e, run c os fresh = Some (s, ts) /\ e = {| i_now := 2; i_read := true; i_write := false; i_conn := 0; i_recv := Data [1]; i_mem := true; i_error := []; i_eof := idle;
    i_data := say 1 [] Active; i_send := 0; i_later := false; i_copied := 0; i_under := Some (say 0 [72; 105] Active) |} /\
  os = [start_server; conn 1 7; Event 1 (on_write 1 0); Event 1 e] /\ get 1 (k_sess s) = Some x /\ x_out x = [72; 105] /\ x_write x = false.
Proof. exists srv. do 5 eexists. split; [|split; [reflexivity|]; split; [reflexivity|split; [|split]]]; vm_compute; reflexivity. Qed.
(** a file without other output, attached in an event that does not allow to write, is
    not sent either *)
Theorem C137_file_is_polled_refuted : exists c os s ts x, run c os fresh = Some (s, ts) /\
  os = [start_server; conn 1 7; Event 1 (on_write 1 0); Event 1 (on_read 2 [1] {| c_take := 1; c_out := []; c_file := Some (9, [70; 71]); c_close := false; c_remove := false; c_state := SendAndQuit |})] /\
  get 1 (k_sess s) = Some x /\ x_file x = Some [70; 71] /\ x_state x = SendAndQuit /\ x_write x = false.
Proof. exists srv. do 4 eexists. split; [|split; [reflexivity|split; [|split; [|split]]]]; vm_compute; reflexivity. Qed.
(** when sendfile() says "later" (-1, EAGAIN), the session is closed and the rest of the
    file is lost; send() with the same answer is tried again *)
Theorem C137_file_complete_refuted : exists c os s ts, run c os fresh = Some (s, ts) /\ get 1 (k_sess s) = None /\
  os = [start_server; conn 1 7; Event 1 (on_read 2 [1] {| c_take := 1; c_out := [72]; c_file := Some (9, [70; 71; 73]); c_close := false; c_remove := false; c_state := SendAndQuit |});
        Event 1 (on_write 3 1); Event 1 {| i_now := 4; i_read := false; i_write := true; i_conn := 0; i_recv := Again; i_mem := true; i_error := []; i_eof := idle; i_data := idle; i_send := -1; i_later := true; i_copied := -1; i_under := None |}] /\
  flat_map (fun p => r_copied (snd p)) ts = [70].
Proof. exists srv. do 3 eexists. split; [|split; [|split; [reflexivity|]]]; vm_compute; reflexivity. Qed.

(** C138: every rejected connection that ends makes room for one session more than
    allowed: the counter is decremented although it was not incremented *)
Theorem C138_number_of_sessions_refuted : exists os s ts, run srv os fresh = Some (s, ts) /\ NoDup (made os) /\ c_allowed srv = 2 /\
  map (fun p => (fst p, x_state (snd p))) (k_sess s) = [(1, Active); (2, Active); (4, Active); (6, Active)].
Proof.
  exists [start_server; conn 1 7; conn 2 8; conn 3 9; Event 3 (on_write 1 1); conn 4 9; conn 5 10; Event 5 (on_write 2 1); conn 6 10].
  do 2 eexists. split; [vm_compute; reflexivity|]. split; [repeat constructor; cbn; intuition discriminate|]. vm_compute. auto.
Qed.
(** sessions whose init_session fails stay counted: afterwards nobody is served although
    there is no session; and their memory is used after it was freed *)
Theorem C138_served_refuted : exists os s ts, run srv os fresh = Some (s, ts) /\ k_sess s = [] /\ (forall now id fd err s' r, step srv (Accept now id fd true err (Made true)) s = Some (s', r) -> r_rejected r = true) /\
  (forall e, step srv (Event 1 e) s = None) /\ os = [start_server; Accept 0 1 7 true [83] (Made false); Accept 0 2 8 true [83] (Made false)].
Proof.
  eexists. do 2 eexists. split; [|split; [|split; [|split; [|reflexivity]]]].
  - vm_compute. reflexivity.
  - reflexivity.
  - intros now id fd err s' r H. cbn in H. injection H as <- <-. reflexivity.
  - intro e. reflexivity.
Qed.

(** C139: a session that copies a file all the time is closed at the timeout *)
Theorem C139_timeout_refuted : exists os s ts, run http os fresh = Some (s, ts) /\ get 1 (k_sess s) = None /\ flat_map (fun p => r_copied (snd p)) ts = [70; 71; 72] /\ c_timeout http = 120000 /\
  os = [start_server; conn 1 7; Event 1 (on_read 2 [1] {| c_take := 1; c_out := [72]; c_file := Some (9, [70; 71; 72; 73; 74]); c_close := false; c_remove := false; c_state := SendAndQuit |});
        Event 1 (on_write 3 1); Event 1 (on_write 60000 1); Event 1 (on_write 120000 1); Timer 1 120003].
Proof. do 3 eexists. split; [|split; [|split; [|split; [reflexivity|reflexivity]]]]; vm_compute; reflexivity. Qed.
(** the event that tells that a connection was refused does not close the session *)
Theorem C139_refused_refuted : exists os s ts x, run srv os fresh = Some (s, ts) /\ get 1 (k_sess s) = Some x /\ x_state x = Cleanup /\
  os = [AddClient; ConnectTo 0 1 7 EINPROGRESS [] (Made true);
        Event 1 {| i_now := 1; i_read := false; i_write := true; i_conn := 111; i_recv := Again; i_mem := true; i_error := []; i_eof := idle; i_data := idle; i_send := 0; i_later := false; i_copied := 0; i_under := None |}].
Proof. do 4 eexists. split; [|split; [|split; [|reflexivity]]]; vm_compute; reflexivity. Qed.
(** it is closed by the next event: the system tells an error only once *)
Theorem C139_refused_closed_next : forall c os s ts id x e s' r, run c os fresh = Some (s, ts) -> NoDup (made os) -> get id (k_sess s) = Some x -> x_state x = Cleanup -> x_wait x = true ->
  i_write e = true -> i_conn e = 0 -> step c (Event id e) s = Some (s', r) -> get id (k_sess s') = None.
Proof.
  intros c os s ts id x e s' r H N G SC WT IW IC ST. destruct (run_traced c os fresh s ts [] fresh_traced N H) as (ND & _).
  cbn [step] in ST. destruct (existsb (Z.eqb id) (k_freed s)); [discriminate|]. rewrite G in ST.
  destruct (parse_connection c e x) as [y [w|]] eqn:P.
  - assert (ZC : x_state (w_x w) = Cleanup).
    { unfold parse_connection in P. destruct (x_wait (ev_connect e x)) eqn:W2; [discriminate|]. injection P as <- <-.
      assert (C0 : x_state (w_x (start (ev_connect e x))) = Cleanup) by (cbn [start w_x]; unfold ev_connect; rewrite WT, IW, IC; exact SC).
      set (w0 := start (ev_connect e x)) in *. clearbody w0.
      unfold ev_read at 1. rewrite C0. cbn [state_eqb andb]. unfold ev_data. rewrite C0. cbn [state_eqb andb]. unfold ev_send. rewrite C0. cbn [state_eqb negb andb].
      unfold ev_file. rewrite C0. cbn [state_eqb andb]. replace (match x_file (w_x w0) with Some _ => w0 | None => w0 end) with w0 by (destruct (x_file (w_x w0)); reflexivity).
      unfold ev_under. rewrite C0. cbn [state_eqb andb]. unfold ev_done. destruct ((zlen (x_out (w_x w0)) =? 0) && match x_file (w_x w0) with Some (_ :: _) => false | _ => true end); [|exact C0].
      cbv zeta. wsimp. rewrite C0. cbn [state_eqb]. wsimp. exact C0. }
    rewrite ZC in ST. cbn [state_eqb orb] in ST. unfold stream_close in ST. cbn [k_remove k_sess with_sess] in ST.
    assert (N0 : NoDup (map fst (put id (w_x w) (k_sess s)))) by (rewrite put_keys; exact ND).
    match type of ST with (let '(_, _) := if _ then remove c ?S1 else _ in _) = _ => set (s1 := S1) in ST end.
    assert (G1 : get id (k_sess s1) = None) by (unfold s1; cbn [k_sess]; rewrite (get_del _ _ _ N0), Z.eqb_refl; reflexivity).
    assert (N1 : NoDup (map fst (k_sess s1))) by (unfold s1; cbn [k_sess]; apply del_nodup; exact N0).
    destruct (if k_remove s || w_remove w then remove c s1 else (s1, [])) as [s2 f2] eqn:E2.
    assert (SB : sub s2 s1) by (destruct (k_remove s || w_remove w); [eapply remove_sub; eauto | injection E2 as <- <-; apply sub_refl; exact N1]).
    injection ST as <- <-. destruct (get id (k_sess s2)) eqn:G2; [apply (proj2 SB) in G2; congruence | reflexivity].
  - unfold parse_connection in P. unfold ev_connect in P. rewrite WT, IW, IC in P. discriminate.
Qed.
(** removing a socket, even by force, leaves a session with pending output; it goes on
    as before and serves requests when the output is sent *)
Theorem C139_removed_refuted : exists os s ts x, run srv os fresh = Some (s, ts) /\ k_live s = false /\ get 1 (k_sess s) = Some x /\ x_state x = Active /\ sent_of 1 ts = [65; 66] /\
  os = [start_server; conn 1 7; Write 1 [65]; Remove true; Event 1 (on_write 1 1); Event 1 (on_read 2 [1] (say 1 [66] Active)); Event 1 (on_write 3 1)].
Proof. do 4 eexists. split; [|split; [|split; [|split; [|split; [|reflexivity]]]]]; vm_compute; reflexivity. Qed.
(** a socket that was removed in an event and added again is removed again by the next
    event of a session: the flag is never cleared *)
Theorem C139_added_again_refuted : exists os s ts, run srv os fresh = Some (s, ts) /\ k_live s = false /\
  os = [start_server; conn 1 7; Event 1 (on_read 1 [1] {| c_take := 1; c_out := []; c_file := None; c_close := false; c_remove := true; c_state := Cleanup |});
        AddServer 6 true; conn 2 7; Event 2 (on_write 2 0)].
Proof. do 3 eexists. split; [|split; [|reflexivity]]; vm_compute; reflexivity. Qed.

(** C140: the socket of outgoing connections has no descriptor of its own.  Removing it
    closes descriptor 0. *)
Theorem C140_outgoing_socket_refuted : exists os s ts, run srv os fresh = Some (s, ts) /\ kernel [] ts /\ ~ closes_own [] ts /\ os = [AddClient; Remove false].
Proof.
  do 3 eexists. split; [|split; [|split; [|reflexivity]]].
  - vm_compute. reflexivity.
  - vm_compute. intuition.
  - vm_compute. intros (_ & _ & _ & K & _). exact (K 0 (or_introl eq_refl)).
Qed.
(** a connection that fails at once closes the descriptor of the socket, 0, and not the
    new one, that stays open *)
Theorem C140_failed_connect_refuted : exists os s ts, run srv os fresh = Some (s, ts) /\ kernel [] ts /\ ~ closes_own [] ts /\ open_after ts = [7] /\ k_sess s = [] /\ os = [AddClient; ConnectTo 0 1 7 111 [] (Made true)].
Proof.
  do 3 eexists. split; [|split; [|split; [|split; [|split; [|reflexivity]]]]].
  - vm_compute. reflexivity.
  - vm_compute. intuition (subst; discriminate).
  - vm_compute. intros (_ & _ & _ & K & _). destruct (K 0 (or_introl eq_refl)) as [E|[]]. discriminate.
  - vm_compute. reflexivity.
  - reflexivity.
Qed.
(** the HTTP server closes descriptor 0 at the end of every session without a file.
    When the descriptor has been given to a connection, another session ends that
    connection: the session still exists, its descriptor does not. *)
Theorem C140_http_refuted : exists os s ts x, run http os fresh = Some (s, ts) /\ get 2 (k_sess s) = Some x /\ x_fd x = 0 /\ x_state x = Active /\ ~ In 0 (open_after ts) /\ ~ closes_own [] ts /\ kernel [] ts /\ NoDup (made os) /\
  os = start_server :: conn 1 7 :: served 1 ++ conn 2 0 :: conn 3 7 :: served 3.
Proof.
  do 4 eexists. split; [|split; [|split; [|split; [|split; [|split; [|split; [|split; [|reflexivity]]]]]]]].
  - vm_compute. reflexivity.
  - vm_compute. reflexivity.
  - reflexivity.
  - reflexivity.
  - vm_compute. intuition discriminate.
  - vm_compute. intro K. repeat match goal with H : _ /\ _ |- _ => destruct H end. match goal with H : forall a, 0 = a \/ _ -> _ |- _ => destruct (H 0 (or_introl eq_refl)) as [E|[E|[]]]; discriminate end.
  - vm_compute. repeat split; intuition (subst; discriminate).
  - repeat constructor; cbn; intuition discriminate.
Qed.

Print Assumptions C137_sent_in_order_partial.
Print Assumptions C137_all_sent_at_end.
Print Assumptions C137_file.
Print Assumptions C137_output_is_polled_partial.
Print Assumptions C137_output_is_polled_refuted.
Print Assumptions C137_file_is_polled_refuted.
Print Assumptions C137_file_complete_refuted.
Print Assumptions C138_input_limit.
Print Assumptions C138_number_of_sessions_partial.
Print Assumptions C138_served_partial.
Print Assumptions C138_number_of_sessions_refuted.
Print Assumptions C138_served_refuted.
Print Assumptions C139_timeout_restarted_partial.
Print Assumptions C139_timeout_closes.
Print Assumptions C139_removed_partial.
Print Assumptions C139_refused_closed_next.
Print Assumptions C139_timeout_refuted.
Print Assumptions C139_refused_refuted.
Print Assumptions C139_removed_refuted.
Print Assumptions C139_added_again_refuted.
Print Assumptions C140_server_descriptors_partial.
Print Assumptions C140_outgoing_socket_refuted.
Print Assumptions C140_failed_connect_refuted.
Print Assumptions C140_http_refuted.
