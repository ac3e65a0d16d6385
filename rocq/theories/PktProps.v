(** UDP sockets (PktModel): packets that wait are sent in their order, whole and to
    their destination (C134); warnings about forbidden packets are limited (C135); the
    kind of socket is the one configured (C136). *)
From Verif Require Import Base BufLemmas PktModel.

(** ** C134 *)
(** what is known from outside: the packets that were accepted (oonf_packet_send
    returned 0), the packets the operating system took or finally refused *)
Definition accepted1 (x : op * report) : list packet :=
  match x with (Send _ p _ _, r) => if r_result r =? 0 then [p] else [] | _ => [] end.
Definition finished1 (x : op * report) : list packet :=
  match x with
  | (Send _ _ _ _, r) => match r_call r with Some (p, a) => if 0 <? a_res a then [p] else [] | None => [] end
  | (Writable _, r) => match r_call r with Some (p, a) => if (a_res a <? 0) && would_block (a_errno a) then [] else [p] | None => [] end
  | _ => []
  end.
Definition accepted (tr : list (op * report)) : list packet := flat_map accepted1 tr.
Definition finished (tr : list (op * report)) : list packet := flat_map finished1 tr.

Definition packet_ok (p : packet) : Prop := zlen (p_to p) = SOCKLEN /\ zlen (p_data p) < 65536.
Definition enough : memory := {| m_to := true; m_len := true; m_data := true |}.
(** packets an UDP packet can hold, memory, no new configuration *)
Definition plain (o : op) : Prop :=
  match o with Send _ p _ m => packet_ok p /\ m = enough | Writable _ => True | Apply _ _ _ => False end.

Definition frame (p : packet) : bytes := p_to p ++ le16 (u16 (zlen (p_data p))) ++ p_data p.
Definition holds (q : list packet) (s : sock) : Prop :=
  s_out s = flat_map frame q /\ Forall packet_ok q /\ (q <> [] -> s_write s = true).

Lemma le16_ok n : 0 <= n < 65536 -> le16_dec (le16 (u16 n)) = Some n.
Proof.
  intros H. unfold le16, le16_dec, u16, u8. rewrite (Z.mod_small n 65536) by lia. f_equal.
  rewrite (Z.mod_small (n / 256)) by (split; [apply Z.div_pos; lia|apply Z.div_lt_upper_bound; lia]).
  pose proof (Z.div_mod n 256). lia.
Qed.
Lemma firstn_zlen {A} (a b : list A) : firstn (Z.to_nat (zlen a)) (a ++ b) = a.
Proof. unfold zlen. rewrite Nat2Z.id, firstn_app, Nat.sub_diag, firstn_O, firstn_all, app_nil_r. reflexivity. Qed.
Lemma skipn_zlen {A} (a b : list A) : skipn (Z.to_nat (zlen a)) (a ++ b) = b.
Proof. unfold zlen. rewrite Nat2Z.id, skipn_app, Nat.sub_diag, skipn_all. reflexivity. Qed.

Lemma frame_cons p : packet_ok p -> frame p <> [].
Proof. intros [H _] K. unfold frame in K. destruct (p_to p); [discriminate H|discriminate K]. Qed.

Lemma event_frame a s p q : holds (p :: q) s ->
  exists s' r, event a s = Some (s', r) /\ r_call r = Some (p, a) /\
    holds (if (a_res a <? 0) && would_block (a_errno a) then p :: q else q) s'.
Proof.
  intros (O & F & W). inversion F as [|? ? [L1 L2] F']; subst. unfold event.
  assert (E : s_out s = p_to p ++ (le16 (u16 (zlen (p_data p))) ++ (p_data p ++ flat_map frame q))).
  { rewrite O. cbn [flat_map]. unfold frame. rewrite <- !app_assoc. reflexivity. }
  pose proof (zlen_nonneg (p_data p)) as P. pose proof (zlen_nonneg (flat_map frame q)) as Q.
  assert (ZL : zlen (s_out s) = SOCKLEN + (2 + (zlen (p_data p) + zlen (flat_map frame q)))).
  { rewrite E, !zlen_app, L1. reflexivity. }
  destruct (Z.eqb_spec (zlen (s_out s)) 0) as [Z0|_]; [unfold SOCKLEN in ZL; lia|].
  destruct (Z.ltb_spec (zlen (s_out s)) (SOCKLEN + 2)) as [Z0|_]; [lia|].
  rewrite E. rewrite <- L1, firstn_zlen, skipn_zlen.
  change 2%nat with (Z.to_nat (zlen (le16 (u16 (zlen (p_data p)))))). rewrite firstn_zlen, skipn_zlen.
  rewrite le16_ok by lia.
  destruct (Z.ltb_spec (zlen (p_data p ++ flat_map frame q)) (zlen (p_data p))) as [Z0|_]; [rewrite zlen_app in Z0; lia|].
  rewrite firstn_zlen, skipn_zlen.
  assert (PE : {| p_to := p_to p; p_data := p_data p |} = p) by (destruct p; reflexivity). rewrite PE.
  destruct ((a_res a <? 0) && would_block (a_errno a)).
  - eexists _, _. split; [reflexivity|]. split; [reflexivity|]. split; [exact O|]. split; assumption.
  - eexists _, _. split; [reflexivity|]. split; [reflexivity|]. split; [reflexivity|]. split; [exact F'|].
    intros N. cbn [s_write]. destruct q as [|p2 q]; [contradiction|].
    destruct (Z.eqb_spec (zlen (flat_map frame (p2 :: q))) 0) as [Z0|_]; [|apply W; discriminate].
    exfalso. cbn [flat_map] in Z0. inversion F'; subst. pose proof (frame_cons p2 H1) as N2.
    destruct (frame p2) as [|x l]; [now elim N2|]. cbn [app] in Z0. rewrite zlen_cons in Z0.
    pose proof (zlen_nonneg (l ++ flat_map frame q)). lia.
Qed.

Lemma handle_out now s : s_out (fst (handle_errno1 now s)) = s_out s /\ s_write (fst (handle_errno1 now s)) = s_write s.
Proof.
  unfold handle_errno1. destruct (_ && _ && _); [|destruct (_ && _)]; destruct (_ || _); split; reflexivity.
Qed.

Lemma step_holds q s o : holds q s -> plain o ->
  exists s' r q', step o s = Some (s', r) /\ q ++ accepted1 (o, r) = finished1 (o, r) ++ q' /\ holds q' s' /\
    (match o with
     | Send _ p a _ => match r_call r with Some (p', a') => p' = p /\ a' = a /\ q = [] | None => q <> [] end
     | Writable a => match r_call r with Some (p', a') => a' = a /\ exists rest, q = p' :: rest | None => q = [] end
     | _ => True end).
Proof.
  intros H P. pose proof H as (O & F & W). destruct o as [now p a m|a|]; cbn [plain] in P; [|clear P|contradiction].
  - destruct P as [P ->]. cbn [step]. unfold send. destruct (s_out s) as [|b l] eqn:SO.
    + assert (Q : q = []).
      { destruct q as [|p2 q]; [reflexivity|]. cbn [flat_map] in O. inversion F; subst. pose proof (frame_cons p2 H2) as N2.
        destruct (frame p2); [now elim N2|discriminate]. }
      subst q.
      destruct (Z.ltb_spec 0 (a_res a)) as [R|R].
      { eexists _, _, []. split; [reflexivity|]. cbn. destruct (Z.ltb_spec 0 (a_res a)); [|lia]. repeat split; try assumption. }
      destruct (a_errno a =? EPERM).
      { pose proof (handle_out now s) as [HO HW]. destruct (handle_errno1 now s) as [s' w]. cbn [fst] in HO, HW.
        eexists _, _, []. split; [reflexivity|]. cbn. destruct (Z.ltb_spec 0 (a_res a)); [lia|]. repeat split; try assumption; try congruence. }
      destruct (negb (would_block (a_errno a))).
      { eexists _, _, []. split; [reflexivity|]. cbn. destruct (Z.ltb_spec 0 (a_res a)); [lia|]. repeat split; try assumption. }
      eexists _, _, [p]. split; [reflexivity|]. cbn. destruct (Z.ltb_spec 0 (a_res a)); [lia|]. split; [reflexivity|]. split; [|auto].
      split; [|split; [repeat constructor; apply P|reflexivity]]. cbn. rewrite SO. unfold frame. cbn [app]. rewrite app_nil_r, <- app_assoc. reflexivity.
    + eexists _, _, (q ++ [p]). split; [reflexivity|]. cbn [accepted1 finished1 r_result r_call]. change (0 =? 0) with true. cbv iota. split; [reflexivity|]. split.
      * split; [|split; [apply Forall_app; split; [exact F|repeat constructor; apply P]|reflexivity]].
        unfold enqueue, enough, append. cbn [s_out m_to m_len m_data]. rewrite SO, O, flat_map_app. cbn [flat_map]. unfold frame. rewrite app_nil_r, <- !app_assoc. reflexivity.
      * intros ->. discriminate O.
  - cbn [step]. destruct q as [|p q].
    + unfold event. cbn [flat_map] in O. rewrite O. change (zlen (@nil Z) =? 0) with true. cbv iota.
      eexists _, _, []. split; [reflexivity|]. cbn. repeat split; auto; try (intros N; now elim N).
    + destruct (event_frame a s p q H) as (s' & r & E & C & HQ). rewrite E. eexists _, _, _. split; [reflexivity|]. cbn [accepted1 finished1]. rewrite C, app_nil_r.
      split; [|split; [exact HQ|eauto]].
      destruct ((a_res a <? 0) && would_block (a_errno a)); reflexivity.
Qed.

Lemma run_app os1 : forall os2 s s2 tr, run (os1 ++ os2) s = Some (s2, tr) ->
  exists s1 tr1 tr2, run os1 s = Some (s1, tr1) /\ run os2 s1 = Some (s2, tr2) /\ tr = tr1 ++ tr2.
Proof.
  induction os1 as [|o os1 IH]; intros os2 s s2 tr H; cbn [app run] in *.
  - exists s, [], tr. auto.
  - destruct (step o s) as [[s' t]|]; [|discriminate]. destruct (run (os1 ++ os2) s') as [[s3 ts]|] eqn:R; [|discriminate].
    injection H as -> <-. destruct (IH _ _ _ _ R) as (s1 & t1 & t2 & R1 & R2 & ->). rewrite R1.
    exists s1, ((o, t) :: t1), t2. auto.
Qed.

Lemma run_holds os : forall q s, holds q s -> Forall plain os ->
  exists s' tr q', run os s = Some (s', tr) /\ q ++ accepted tr = finished tr ++ q' /\ holds q' s'.
Proof.
  induction os as [|o os IH]; intros q s H F; cbn [run].
  - exists s, [], q. split; [reflexivity|]. cbn. now rewrite app_nil_r.
  - inversion F as [|? ? P F']; subst. destruct (step_holds q s o H P) as (s1 & r & q1 & E & B & H1 & _). rewrite E.
    destruct (IH q1 s1 H1 F') as (s2 & tr & q2 & R & B2 & H2). rewrite R. exists s2, ((o, r) :: tr), q2.
    split; [reflexivity|]. split; [|exact H2]. unfold accepted, finished in *. cbn [flat_map].
    rewrite app_assoc, B, <- app_assoc, B2, app_assoc. reflexivity.
Qed.

Lemma fresh_holds now : holds [] (fresh now).
Proof. split; [reflexivity|]. split; [constructor|]. intros N; now elim N. Qed.

(** As long as packets fit into UDP, memory is available and the configuration stays:
    no operation reads outside of the buffer; the accepted packets are, in their
    order, those the operating system took or refused and those that wait; while some
    wait the socket asks for write events.  An event tries the oldest packet that
    waits; a new packet does not overtake one that waits and is tried at once if none
    does.  [_partial]: see the refutations. *)
Theorem C134_order_partial : forall now os, Forall plain os ->
  exists s tr waiting, run os (fresh now) = Some (s, tr) /\ accepted tr = finished tr ++ waiting /\ (waiting <> [] -> s_write s = true).
Proof.
  intros now os F. destruct (run_holds os [] (fresh now) (fresh_holds now) F) as (s & tr & q & R & B & O & FQ & W).
  exists s, tr, q. auto.
Qed.
Theorem C134_calls_partial : forall now os1 o os2 s tr, Forall plain (os1 ++ o :: os2) -> run (os1 ++ o :: os2) (fresh now) = Some (s, tr) ->
  exists tr1 r tr2, tr = tr1 ++ (o, r) :: tr2 /\ length tr1 = length os1 /\
    match o with
    | Send _ p a _ => match r_call r with Some (p', a') => p' = p /\ a' = a /\ accepted tr1 = finished tr1
                      | None => exists p0 waiting, accepted tr1 = finished tr1 ++ p0 :: waiting end
    | Writable a => match r_call r with Some (p', a') => a' = a /\ exists waiting, accepted tr1 = finished tr1 ++ p' :: waiting
                    | None => accepted tr1 = finished tr1 end
    | Apply _ _ _ => False
    end.
Proof.
  intros now os1 o os2 s tr F R. apply Forall_app in F as [F1 F2]. inversion F2 as [|? ? P F3]; subst.
  destruct (run_app _ _ _ _ _ R) as (s1 & tr1 & tr2 & R1 & R2 & ->).
  destruct (run_holds os1 [] (fresh now) (fresh_holds now) F1) as (s1' & tr1' & q & R1' & B & HQ).
  rewrite R1 in R1'. injection R1' as <- <-. cbn [app] in B.
  destruct (step_holds q s1 o HQ P) as (s2 & r & q2 & E & _ & _ & C).
  cbn [run] in R2. rewrite E in R2. destruct (run os2 s2) as [[s3 t3]|]; [|discriminate]. injection R2 as <- <-.
  exists tr1, r, t3. split; [reflexivity|]. split.
  - clear - R1. revert R1. generalize (fresh now). revert tr1 s1. induction os1 as [|o os1 IH]; intros tr1 s1 s0 R; cbn [run] in R.
    + injection R as _ <-. reflexivity.
    + destruct (step o s0) as [[s' t]|]; [|discriminate]. destruct (run os1 s') as [[s3 ts]|] eqn:E; [|discriminate]. injection R as _ <-. cbn. f_equal. eapply IH, E.
  - destruct o as [n p a m|a|]; [| |exact P].
    + destruct (r_call r) as [[p' a']|].
      * destruct C as (-> & -> & ->). rewrite app_nil_r in B. auto.
      * destruct q as [|p0 q]; [now elim C|]. eauto.
    + destruct (r_call r) as [[p' a']|].
      * destruct C as (-> & rest & ->). eauto.
      * subst q. now rewrite app_nil_r in B.
Qed.
Definition to (n : Z) : bytes := repeat n (Z.to_nat SOCKLEN).
Definition again : answer := {| a_res := -1; a_errno := 11 |}.
Definition took (n : Z) : answer := {| a_res := n; a_errno := 0 |}.
Definition pkt (n : Z) (d : bytes) : packet := {| p_to := to n; p_data := d |}.
Definition ex_ops : list op :=
  [Send 1 (pkt 1 [10; 11]) again enough; Send 2 (pkt 2 [20]) (took 0) enough; Writable again; Writable (took 2); Writable (took 1); Send 3 (pkt 3 [30]) (took 1) enough].
Example C134_ex :
  Forall plain ex_ops /\
  (exists s tr, run ex_ops (fresh 0) = Some (s, tr) /\ accepted tr = [pkt 1 [10; 11]; pkt 2 [20]; pkt 3 [30]] /\ finished tr = accepted tr /\ s_write s = false) /\
  (exists s tr, run (firstn 4 ex_ops) (fresh 0) = Some (s, tr) /\ finished tr = [pkt 1 [10; 11]] /\ s_write s = true).
Proof.
  split; [|split].
  - unfold ex_ops, plain, packet_ok. repeat constructor; vm_compute; intuition congruence.
  - eexists _, _. vm_compute. repeat split.
  - eexists _, _. vm_compute. repeat split.
Qed.

(** A packet of 65536 bytes or more that has to wait is cut; its rest is taken for
    the next packet. *)
Definition large : packet := pkt 1 (repeat 7 (Z.to_nat 65666)).
Definition large_ops : list op := [Send 1 large again enough; Writable (took 130); Writable (took 1799)].
Definition packet_dec (p q : packet) : {p = q} + {p <> q}.
Proof. decide equality; apply (list_eq_dec Z.eq_dec). Defined.
Definition large_check (l : packet) (x : option (sock * list (op * report))) : bool :=
  match x with
  | None => false
  | Some (s, tr) =>
      (if list_eq_dec packet_dec (accepted tr) [l] then true else false) && s_write s &&
      match finished tr with
      | [p1; p2] => (if list_eq_dec Z.eq_dec (p_data p1) (repeat 7 130) then true else false) && (if list_eq_dec Z.eq_dec (p_to p2) (repeat 7 128) then true else false)
      | _ => false
      end
  end.
Lemma large_check_sound l x : large_check l x = true ->
  exists s tr, x = Some (s, tr) /\ accepted tr = [l] /\ s_write s = true /\
  exists p1 p2, finished tr = [p1; p2] /\ p_data p1 = repeat 7 130 /\ p_to p2 = repeat 7 128.
Proof.
  unfold large_check. intros C. destruct x as [[s tr]|]; [|discriminate C].
  exists s, tr.
  destruct (list_eq_dec packet_dec (accepted tr) [l]) as [A|]; [|discriminate]. cbn [andb] in C. apply andb_prop in C as [W C].
  destruct (finished tr) as [|p1 [|p2 [|]]]; try discriminate. apply andb_prop in C as [C1 C2].
  destruct (list_eq_dec Z.eq_dec (p_data p1) (repeat 7 130)) as [E1|]; [|discriminate]. destruct (list_eq_dec Z.eq_dec (p_to p2) (repeat 7 128)) as [E2|]; [|discriminate].
  split; [reflexivity|]. split; [exact A|]. split; [exact W|]. exists p1, p2. auto.
Qed.
Theorem C134_large_refuted : exists os s tr,
  (forall o, In o os -> match o with Send _ p _ m => zlen (p_to p) = SOCKLEN /\ m = enough | Writable _ => True | _ => False end) /\
  run os (fresh 0) = Some (s, tr) /\ accepted tr = [large] /\ s_write s = true /\
  exists p1 p2, finished tr = [p1; p2] /\ p_data p1 = repeat 7 130 /\ p_to p2 = repeat 7 128.
Proof.
  assert (C : large_check large (run large_ops (fresh 0)) = true) by (vm_compute; reflexivity).
  apply large_check_sound in C as (s & tr & C). exists large_ops, s, tr. split; [|exact C].
  intros o I. destruct I as [I|I]; [rewrite <- I; split; reflexivity|].
  destruct I as [I|[I|[]]]; rewrite <- I; exact Logic.I.
Qed.
(** Without memory for the data the packet is accepted, and bytes of the next packet
    are sent instead. *)
Theorem C134_memory_refuted : exists os s tr,
  (forall o, In o os -> match o with Send _ p _ _ => packet_ok p | Writable _ => True | _ => False end) /\
  run os (fresh 0) = Some (s, tr) /\ accepted tr = [pkt 1 [10; 11]; pkt 2 [20]] /\ finished tr = [pkt 1 [2; 2]].
Proof.
  exists [Send 1 (pkt 1 [10; 11]) again {| m_to := true; m_len := true; m_data := false |}; Send 2 (pkt 2 [20]) again enough; Writable (took 2)].
  eexists _, _. split; [intros o [<-|[<-|[<-|[]]]]; vm_compute; auto|]. vm_compute. repeat split.
Qed.
(** oonf_packet_socket.c:192-197: without "force" the socket is to be "removed after
    the last packet in queue is sent": waiting packets are lost when the socket is
    opened again. *)
Theorem C134_reconfigured_refuted : exists os s tr,
  (forall o, In o os -> match o with Send _ p _ m => packet_ok p /\ m = enough | _ => True end) /\
  run os (fresh 0) = Some (s, tr) /\ accepted tr = [pkt 1 [10; 11]; pkt 2 [20]] /\ finished tr = [] /\ s_write s = false /\ s_out s = [].
Proof.
  exists [Send 1 (pkt 1 [10; 11]) again enough; Send 2 (pkt 2 [20]) again enough; Apply 3 false 0; Writable (took 2)].
  eexists _, _. split; [intros o [<-|[<-|[<-|[<-|[]]]]]; vm_compute; auto|]. vm_compute. repeat split.
Qed.

(** ** C135 *)
(** packets the operating system forbids (EPERM), at their times *)
Definition denied : answer := {| a_res := -1; a_errno := EPERM |}.
Definition denials (l : list (Z * packet)) : list op := map (fun x => Send (fst x) (snd x) denied enough) l.
Definition warnings (tr : list (op * report)) : list warning := map (fun x => r_warn (snd x)) tr.
Definition shown (w : warning) : bool := match w with NoWarning => false | _ => true end.
Definition count_shown (ws : list warning) : Z := zlen (filter shown ws).
(** times do not go back *)
Fixpoint nondec (t : Z) (l : list Z) : Prop := match l with [] => True | x :: r => t <= x /\ nondec x r end.
Definition YEARS : Z := 4611686018427387904.

Fixpoint wrun (ts : list Z) (s : sock) : sock * list warning :=
  match ts with [] => (s, []) | t :: r => let '(s1, w) := handle_errno1 t s in let '(s2, ws) := wrun r s1 in (s2, w :: ws) end.

Lemma run_denials l : forall s, s_out s = [] -> exists tr, run (denials l) s = Some (fst (wrun (map fst l) s), tr) /\ warnings tr = snd (wrun (map fst l) s).
Proof.
  induction l as [|[t p] l IH]; intros s O; cbn [denials map run wrun fst snd].
  - exists []. split; reflexivity.
  - cbn [step]. unfold send. rewrite O. change (0 <? a_res denied) with false. change (a_errno denied =? EPERM) with true. cbv iota.
    pose proof (handle_out t s) as [HO _]. destruct (handle_errno1 t s) as [s1 w]. cbn [fst] in HO.
    destruct (IH s1 ltac:(congruence)) as (tr & R & W). unfold denials in R. rewrite R. destruct (wrun (map fst l) s1) as [s2 ws]. cbn [fst snd] in *.
    eexists. split; [reflexivity|]. cbn. f_equal. exact W.
Qed.
Lemma wrun_app a : forall b s, wrun (a ++ b) s = (fst (wrun b (fst (wrun a s))), snd (wrun a s) ++ snd (wrun b (fst (wrun a s)))).
Proof.
  induction a as [|t a IH]; intros b s; cbn [app wrun]; [cbn; now destruct (wrun b s)|].
  destruct (handle_errno1 t s) as [s1 w]. rewrite IH. destruct (wrun a s1) as [s2 ws]. cbn. reflexivity.
Qed.
Lemma wrun_len a : forall s, length (snd (wrun a s)) = length a.
Proof. induction a as [|t a IH]; intros s; cbn [wrun]; [reflexivity|]. destruct (handle_errno1 t s) as [s1 w]. specialize (IH s1). destruct (wrun a s1). cbn in *. congruence. Qed.

Lemma quot_le a b : 0 <= a -> 1 <= b -> 0 <= Z.quot a b <= a.
Proof. intros A B. rewrite Z.quot_div_nonneg by lia. split; [apply Z.div_pos; lia|]. apply Z.div_le_upper_bound; nia. Qed.
(** what one denial does, free of machine arithmetic *)
Definition wstep (t : Z) (sup : bool) (time c : Z) (sup' : bool) (time' c' : Z) (w : warning) : Prop :=
  if t - time <? 60000 then
    if sup then sup' = true /\ time' = time /\ c' = c + 1 /\ (1 <= c -> w = NoWarning)
    else if 10 <? c then sup' = true /\ time' = t /\ c' = 1 /\ w = Plain
    else sup' = false /\ time' = time /\ c' = c + 1 /\ w = Plain
  else
    time' = t /\ c' = 1 /\
    (if sup then (sup' = false /\ w = Plain) \/ (sup' = true /\ (1 <= c -> w = Suppressed c))
     else w = Plain /\ (sup' = true -> 10 < c) /\ (t - time < 120000 -> 10 < c -> sup' = true)).
Lemma handle_wstep t s : 0 <= s_time s <= t -> t < YEARS -> 0 <= s_count s < 4294967295 ->
  wstep t (s_sup s) (s_time s) (s_count s) (s_sup (fst (handle_errno1 t s))) (s_time (fst (handle_errno1 t s))) (s_count (fst (handle_errno1 t s))) (snd (handle_errno1 t s)).
Proof.
  intros T Y C. unfold wstep, handle_errno1.
  assert (I : s64 (- s64 (s_time s - t)) = t - s_time s).
  { unfold YEARS in Y. unfold s64, u64. destruct (Z.eq_dec (s_time s) t) as [->|N].
    - rewrite Z.sub_diag. reflexivity.
    - assert (M : (s_time s - t) mod 18446744073709551616 = s_time s - t + 18446744073709551616).
      { symmetry. apply Z.mod_unique with (-1); lia. }
      rewrite M. destruct (Z.ltb_spec (s_time s - t + 18446744073709551616) 9223372036854775808); [lia|].
      rewrite (Z.mod_small (- _)) by lia. destruct (Z.ltb_spec (- (s_time s - t + 18446744073709551616 - 18446744073709551616)) 9223372036854775808); lia. }
  rewrite I. assert (U : u32 (s_count s + 1) = s_count s + 1) by (apply u32_id; unfold is_u32; lia). rewrite U.
  destruct (Z.ltb_spec (t - s_time s) 60000) as [L|L].
  - destruct (Z.leb_spec 60000 (t - s_time s)); [lia|]. cbn [andb orb]. destruct (s_sup s); cbn [negb andb orb].
    + cbn [fst snd s_sup s_time s_count]. repeat split. intros P. destruct (Z.eqb_spec (s_count s) 0); [lia|]. cbn [negb]. destruct (Z.ltb_spec 1 (s_count s + 1)); [reflexivity|lia].
    + destruct (Z.ltb_spec 10 (s_count s)); cbn [fst snd s_sup s_time s_count andb negb orb]; repeat split.
  - destruct (Z.leb_spec 60000 (t - s_time s)) as [G|]; [|lia]. cbn [andb orb].
    set (k := Z.quot (t - s_time s) 60000).
    assert (K : 1 <= k) by (unfold k; rewrite Z.quot_div_nonneg by lia; apply Z.div_le_lower_bound; lia).
    pose proof (quot_le (s_count s) k ltac:(lia) K) as Q. set (n := Z.quot (s_count s) k) in *.
    assert (UN : u32 n = n) by (apply u32_id; unfold is_u32; lia). rewrite UN.
    destruct (s_sup s); cbn [andb orb negb].
    + destruct (Z.ltb_spec n 5); cbn [fst snd s_sup s_time s_count andb negb orb]; repeat split; [left; auto|right].
      split; [reflexivity|]. intros P. destruct (Z.eqb_spec (s_count s) 0); [lia|]. reflexivity.
    + destruct (Z.ltb_spec 10 n); cbn [fst snd s_sup s_time s_count andb negb orb]; repeat split; try lia; try congruence.
      intros V W. exfalso. assert (k = 1) by (unfold k; rewrite Z.quot_div_nonneg by lia; symmetry; apply Z.div_unique with (t - s_time s - 60000); lia).
      unfold n in H. rewrite H0, Z.quot_1_r in H. lia.
Qed.

(** members of the limit, [n]: denials until now *)
Definition wok (t n : Z) (s : sock) : Prop := 0 <= s_time s <= t /\ 0 <= s_count s <= n /\ (s_sup s = true -> 1 <= s_count s).
Lemma wok_step t0 t n s : wok t0 n s -> t0 <= t < YEARS -> n < 4294967295 -> wok t (n + 1) (fst (handle_errno1 t s)).
Proof.
  intros ((T1 & T2) & (C1 & C2) & P) T N. pose proof (handle_wstep t s ltac:(lia) ltac:(lia) ltac:(lia)) as W. unfold wstep in W. unfold wok.
  destruct (t - s_time s <? 60000).
  - destruct (s_sup s).
    + destruct W as (-> & -> & -> & _). lia.
    + destruct (Z.ltb_spec 10 (s_count s)); destruct W as (-> & -> & -> & _); lia.
  - destruct W as (-> & -> & _). lia.
Qed.
Lemma last_cons {A} (l : list A) : forall x d, last (x :: l) d = last l x.
Proof. induction l as [|y l IH]; intros x d; [reflexivity|]. change (last (x :: y :: l) d) with (last (y :: l) d). rewrite (IH y d), (IH y x). reflexivity. Qed.
Lemma wok_run ts : forall t0 n s, wok t0 n s -> nondec t0 ts -> Forall (fun t => t < YEARS) ts -> n + zlen ts <= 4294967295 ->
  wok (last ts t0) (n + zlen ts) (fst (wrun ts s)).
Proof.
  induction ts as [|t ts IH]; intros t0 n s W N Y L.
  - change (zlen (@nil Z)) with 0. rewrite Z.add_0_r. exact W.
  - destruct N as [N1 N2]. inversion Y; subst. rewrite zlen_cons in L |- *. pose proof (zlen_nonneg ts). cbn [wrun].
    pose proof (wok_step t0 t n s W ltac:(lia) ltac:(lia)) as W1. destruct (handle_errno1 t s) as [s1 w]. cbn [fst] in W1.
    specialize (IH t (n + 1) s1 W1 N2 H2 ltac:(lia)). destruct (wrun ts s1) as [s2 ws]. cbn [fst] in *.
    replace (last (t :: ts) t0) with (last ts t). { replace (n + (zlen ts + 1)) with (n + 1 + zlen ts) by lia. exact IH. }
    symmetry. apply last_cons.
Qed.

(** warnings that are still possible before the time [w] *)
Definition possible (w : Z) (s : sock) : Z :=
  if s_time s + 120000 <? w then 12
  else if s_time s + 60000 <? w then (if s_sup s then 12 else Z.max 1 (22 - s_count s))
  else if s_sup s then 0 else Z.max 1 (12 - s_count s).
Lemma possible_step w t0 t n s : wok t0 n s -> t0 <= t < YEARS -> w - 60000 <= t < w -> n < 4294967295 ->
  (if shown (snd (handle_errno1 t s)) then 1 else 0) + possible w (fst (handle_errno1 t s)) <= possible w s.
Proof.
  intros ((T1 & T2) & (C1 & C2) & P) T WT N. pose proof (handle_wstep t s ltac:(lia) ltac:(lia) ltac:(lia)) as W. unfold wstep in W. unfold possible.
  destruct (Z.ltb_spec (t - s_time s) 60000) as [L|L].
  - destruct (Z.ltb_spec (s_time s + 120000) w); [lia|].
    destruct (s_sup s).
    + destruct W as (E1 & E2 & E3 & Q). rewrite ?E1, ?E2, ?E3, (Q (P eq_refl)). cbn [shown]. destruct (Z.ltb_spec (s_time s + 120000) w); [lia|]. lia.
    + destruct (Z.ltb_spec 10 (s_count s)); destruct W as (E1 & E2 & E3 & E4); rewrite ?E1, ?E2, ?E3, ?E4; cbn [shown].
      * destruct (Z.ltb_spec (t + 120000) w); [lia|]. destruct (Z.ltb_spec (t + 60000) w); [lia|]. destruct (s_time s + 60000 <? w); lia.
      * destruct (Z.ltb_spec (s_time s + 120000) w); [lia|]. destruct (s_time s + 60000 <? w); lia.
  - destruct W as (E2 & E3 & W). rewrite ?E2, ?E3. destruct (Z.ltb_spec (t + 120000) w); [lia|]. destruct (Z.ltb_spec (t + 60000) w); [lia|].
    destruct (s_sup s).
    + destruct (Z.ltb_spec (s_time s + 60000) w); [|lia].
      destruct W as [[E1 E4]|[E1 Q]]; [rewrite E1, E4|rewrite E1, (Q (P eq_refl))]; cbn [shown]; destruct (s_time s + 120000 <? w); lia.
    + destruct W as (-> & Q1 & Q2). cbn [shown]. destruct (Z.ltb_spec (s_time s + 60000) w); [|lia].
      destruct (s_sup (fst (handle_errno1 t s))); destruct (Z.ltb_spec (s_time s + 120000) w); try lia.
Qed.
Lemma possible_run w ts : forall t0 n s, wok t0 n s -> nondec t0 ts -> Forall (fun t => t < YEARS) ts -> Forall (fun t => w - 60000 <= t < w) ts -> n + zlen ts <= 4294967295 ->
  count_shown (snd (wrun ts s)) <= possible w s.
Proof.
  unfold count_shown. induction ts as [|t ts IH]; intros t0 n s W N Y B L.
  - change (zlen (filter shown (snd (wrun [] s)))) with 0. unfold possible. destruct (s_time s + 120000 <? w), (s_time s + 60000 <? w), (s_sup s); lia.
  - destruct N as [N1 N2]. inversion Y; subst. inversion B; subst. rewrite zlen_cons in L. pose proof (zlen_nonneg ts). cbn [wrun].
    pose proof (wok_step t0 t n s W ltac:(lia) ltac:(lia)) as W1. pose proof (possible_step w t0 t n s W ltac:(lia) ltac:(lia) ltac:(lia)) as PS.
    destruct (handle_errno1 t s) as [s1 x]. cbn [fst snd] in *.
    specialize (IH t (n + 1) s1 W1 N2 H2 H4 ltac:(lia)). destruct (wrun ts s1) as [s2 ws]. cbn [snd filter] in *. destruct (shown x); [rewrite zlen_cons|]; lia.
Qed.

Lemma nondec_app a : forall t b, nondec t (a ++ b) -> nondec t a /\ nondec (last a t) b.
Proof.
  induction a as [|x a IH]; intros t b H; cbn [app nondec] in *; [auto|]. destruct H as [H1 H2]. destruct (IH x b H2) as [A B]. split; [auto|].
  rewrite last_cons. exact B.
Qed.
Lemma skipn_len_app {A} n (a b : list A) : length a = n -> skipn n (a ++ b) = b.
Proof. intros <-. rewrite skipn_app, skipn_all, Nat.sub_diag. reflexivity. Qed.

(** Of the denials within one minute, after any others, at most 22 are shown. *)
Theorem C135_limit : forall t0 before minute start s tr,
  nondec t0 (map fst (before ++ minute)) -> 0 <= t0 -> Forall (fun x => fst x < YEARS) (before ++ minute) -> zlen (before ++ minute) <= 4294967295 ->
  Forall (fun x => start <= fst x < start + 60000) minute ->
  run (denials (before ++ minute)) (fresh t0) = Some (s, tr) ->
  count_shown (skipn (length before) (warnings tr)) <= 22.
Proof.
  intros t0 a b st s tr N T Y L M R. destruct (run_denials (a ++ b) (fresh t0) eq_refl) as (tr' & R' & W). rewrite R in R'. injection R' as _ <-.
  rewrite W, map_app, wrun_app. cbn [snd]. rewrite skipn_len_app by (rewrite wrun_len, map_length; reflexivity).
  rewrite map_app in N. apply nondec_app in N as [N1 N2]. apply Forall_app in Y as [Y1 Y2]. rewrite zlen_app in L. pose proof (zlen_nonneg b).
  assert (LM : forall l : list (Z * packet), zlen (map fst l) = zlen l) by (intros; unfold zlen; now rewrite map_length).
  assert (W1 : wok (last (map fst a) t0) (0 + zlen (map fst a)) (fst (wrun (map fst a) (fresh t0)))).
  { apply wok_run; [|exact N1| |rewrite LM; lia].
    - unfold wok, fresh, packet_add. cbn. repeat split; try lia; try discriminate.
    - apply Forall_map. exact Y1. }
  etransitivity. { eapply (possible_run (st + 60000)); [exact W1|exact N2|apply Forall_map; exact Y2| |rewrite !LM; lia].
    apply Forall_map. eapply Forall_impl; [|exact M]. cbn. intros; lia. }
  destruct W1 as (_ & (C & _) & _). unfold possible. set (s1 := fst _) in *. destruct (s_time s1 + 120000 <? st + 60000), (s_time s1 + 60000 <? st + 60000), (s_sup s1); lia.
Qed.
Definition ex_denials (n : nat) (t : Z) : list (Z * packet) := repeat (t, pkt 1 [1]) n.
(** 22 is reached *)
Example C135_ex_limit : exists s tr, run (denials (ex_denials 0 1 ++ (ex_denials 10 1000 ++ ex_denials 20 60500))) (fresh 500) = Some (s, tr) /\
  count_shown (warnings tr) = 22 /\ Forall (fun x => 1000 <= fst x < 61000) (ex_denials 10 1000 ++ ex_denials 20 60500).
Proof. eexists _, _. split; [vm_compute; reflexivity|]. split; [vm_compute; reflexivity|]. repeat constructor; vm_compute; intuition congruence. Qed.

(** After a denial, and until one at least 60 seconds later, something is shown. *)
Lemma quiet_time ts : forall t0 n s, wok t0 n s -> nondec t0 ts -> Forall (fun t => t < YEARS) ts -> n + zlen ts <= 4294967295 ->
  count_shown (snd (wrun ts s)) = 0 -> s_time (fst (wrun ts s)) = s_time s.
Proof.
  unfold count_shown. induction ts as [|t ts IH]; intros t0 n s W N Y L Q; [reflexivity|].
  destruct N as [N1 N2]. inversion Y; subst. rewrite zlen_cons in L. pose proof (zlen_nonneg ts). cbn [wrun] in *.
  pose proof (wok_step t0 t n s W ltac:(lia) ltac:(lia)) as W1. destruct W as ((T1 & T2) & (C1 & C2) & P).
  pose proof (handle_wstep t s ltac:(lia) ltac:(lia) ltac:(lia)) as X. unfold wstep in X.
  destruct (handle_errno1 t s) as [s1 x]. cbn [fst snd] in *. specialize (IH t (n + 1) s1 W1 N2 H2 ltac:(lia)).
  destruct (wrun ts s1) as [s2 ws]. cbn [fst snd filter] in *. pose proof (zlen_nonneg (filter shown ws)).
  assert (SX : shown x = false) by (destruct (shown x); [rewrite zlen_cons in Q; lia|reflexivity]). rewrite SX in Q. rewrite (IH Q).
  destruct (t - s_time s <? 60000).
  - destruct (s_sup s); [apply X|]. destruct (10 <? s_count s); destruct X as (_ & _ & _ & ->); discriminate SX.
  - destruct X as (_ & _ & X). destruct (s_sup s).
    + destruct X as [[_ ->]|[_ X]]; [discriminate SX|]. rewrite (X (P eq_refl)) in SX. discriminate SX.
    + destruct X as (-> & _). discriminate SX.
Qed.
Theorem C135_reported : forall t0 before t1 p1 between t2 p2 s tr,
  nondec t0 (map fst (before ++ (t1, p1) :: between ++ [(t2, p2)])) -> 0 <= t0 -> t2 < YEARS -> zlen (before ++ (t1, p1) :: between ++ [(t2, p2)]) <= 4294967295 ->
  t1 + 60000 <= t2 ->
  run (denials (before ++ (t1, p1) :: between ++ [(t2, p2)])) (fresh t0) = Some (s, tr) ->
  1 <= count_shown (skipn (length before + 1) (warnings tr)).
Proof.
  intros t0 a t1 p1 b t2 p2 s tr N T Y L D R.
  assert (YA : Forall (fun x => x < YEARS) (map fst (a ++ (t1, p1) :: b ++ [(t2, p2)]))).
  { clear - N Y. rewrite map_app in *. cbn [map] in *. rewrite map_app in *. cbn [map fst] in *.
    revert N. generalize t0. rewrite app_comm_cons, app_assoc. set (l := map fst a ++ t1 :: map fst b). induction l as [|x l IH]; intros t N; cbn [app nondec] in *; [repeat constructor; exact Y|].
    destruct N as [_ N]. constructor; [|eapply IH, N]. clear IH. revert x N. induction l as [|y l IH]; intros x N; cbn [app nondec] in N; [lia|].
    destruct N as [N1 N2]. specialize (IH _ N2). lia. }
  destruct (run_denials (a ++ (t1, p1) :: b ++ [(t2, p2)]) (fresh t0) eq_refl) as (tr' & R' & W). rewrite R in R'. injection R' as _ <-.
  rewrite W. set (l1 := map fst (a ++ [(t1, p1)])).
  assert (E : map fst (a ++ (t1, p1) :: b ++ [(t2, p2)]) = l1 ++ (map fst b ++ [t2])).
  { unfold l1. rewrite !map_app. cbn [map fst]. rewrite map_app, <- app_assoc. reflexivity. }
  assert (LZ : zlen (map fst (a ++ (t1, p1) :: b ++ [(t2, p2)])) <= 4294967295) by (unfold zlen in *; rewrite map_length; exact L).
  rewrite E in *. rewrite wrun_app. cbn [snd].
  rewrite skipn_len_app by (rewrite wrun_len; unfold l1; rewrite map_length, app_length; reflexivity).
  apply nondec_app in N as [N1 N2]. apply Forall_app in YA as [Y1 Y2]. rewrite zlen_app in LZ. pose proof (zlen_nonneg (map fst b ++ [t2])) as Z0.
  assert (W1 : wok (last l1 t0) (0 + zlen l1) (fst (wrun l1 (fresh t0)))).
  { apply wok_run; [|exact N1|exact Y1|lia]. unfold wok, fresh, packet_add. cbn. repeat split; try lia; try discriminate. }
  assert (LL : last l1 t0 = t1) by (unfold l1; rewrite map_app; apply last_last). rewrite LL in *.
  set (s1 := fst (wrun l1 (fresh t0))) in *. rewrite wrun_app. cbn [snd]. unfold count_shown. rewrite filter_app, zlen_app.
  set (l2 := map fst b) in *. apply nondec_app in N2 as [N3 N4]. apply Forall_app in Y2 as [Y3 Y4]. rewrite zlen_app in LZ. change (zlen [t2]) with 1 in LZ.
  pose proof (zlen_nonneg (filter shown (snd (wrun l2 s1)))) as Z1.
  destruct (Z.eq_dec (zlen (filter shown (snd (wrun l2 s1)))) 0) as [Q|Q]; [|pose proof (zlen_nonneg (filter shown (snd (wrun [t2] (fst (wrun l2 s1)))))); lia].
  pose proof (quiet_time l2 t1 _ s1 W1 N3 Y3 ltac:(lia) Q) as ST.
  pose proof (wok_run l2 t1 _ s1 W1 N3 Y3 ltac:(lia)) as W2. set (s2 := fst (wrun l2 s1)) in *.
  destruct N4 as [N4 _]. destruct W2 as ((U1 & U2) & (U3 & U4) & U5). pose proof (handle_wstep t2 s2 ltac:(lia) Y ltac:(lia)) as X. unfold wstep in X.
  destruct W1 as ((V1 & V2) & _). destruct (Z.ltb_spec (t2 - s_time s2) 60000); [lia|]. destruct X as (_ & _ & X).
  cbn [wrun]. destruct (handle_errno1 t2 s2) as [s3 x]. cbn [fst snd filter] in *.
  assert (SX : shown x = true). { destruct (s_sup s2); [destruct X as [[_ ->]|[_ X]]; [reflexivity|now rewrite (X (U5 eq_refl))]|destruct X as (-> & _); reflexivity]. }
  rewrite SX, zlen_cons. change (zlen (@nil warning)) with 0. lia.
Qed.

(** The number in a warning is one more than the number of denials suppressed since
    the warning before it. *)
Lemma wrun_split ts : forall w1 w2 s, snd (wrun ts s) = w1 ++ w2 -> exists a b, ts = a ++ b /\ snd (wrun a s) = w1 /\ snd (wrun b (fst (wrun a s))) = w2.
Proof.
  induction ts as [|t ts IH]; intros w1 w2 s H.
  - destruct w1; [|discriminate H]. exists [], []. auto.
  - destruct w1 as [|x w1]; [exists [], (t :: ts); auto|]. cbn [wrun] in H. destruct (handle_errno1 t s) as [s1 w] eqn:E. destruct (wrun ts s1) as [s2 ws] eqn:R. cbn [snd] in H.
    injection H as -> H. destruct (IH w1 w2 s1) as (a & b & -> & A & B); [rewrite R; exact H|].
    exists (t :: a), b. split; [reflexivity|]. cbn [wrun]. rewrite E. destruct (wrun a s1). cbn in *. subst. auto.
Qed.
Lemma suppressed_run k : forall ts t0 n s m, wok t0 n s -> nondec t0 ts -> Forall (fun t => t < YEARS) ts -> n + zlen ts <= 4294967295 ->
  (s_sup s = true -> m = s_count s) -> forall c, snd (wrun ts s) = repeat NoWarning k ++ [Suppressed c] -> c = m + Z.of_nat k.
Proof.
  induction k as [|k IH]; intros ts t0 n s m W N Y L M c R; (destruct ts as [|t ts]; [discriminate R|]);
    destruct N as [N1 N2]; inversion Y; subst; rewrite zlen_cons in L; pose proof (zlen_nonneg ts); cbn [wrun] in R;
    pose proof (wok_step t0 t n s W ltac:(lia) ltac:(lia)) as W1; destruct W as ((T1 & T2) & (C1 & C2) & P);
    pose proof (handle_wstep t s ltac:(lia) ltac:(lia) ltac:(lia)) as X; unfold wstep in X;
    destruct (handle_errno1 t s) as [s1 x]; cbn [fst snd] in *; destruct (wrun ts s1) as [s2 ws] eqn:E; cbn [snd repeat app] in R; injection R as -> R.
  - destruct (t - s_time s <? 60000).
    + destruct (s_sup s); [destruct X as (_ & _ & _ & X); specialize (X (P eq_refl)); discriminate X|]. destruct (10 <? s_count s); destruct X as (_ & _ & _ & X); discriminate X.
    + destruct X as (_ & _ & X). destruct (s_sup s); [|destruct X as (X & _); discriminate X]. destruct X as [[_ X]|[_ X]]; [discriminate X|]. specialize (X (P eq_refl)). injection X as ->. rewrite (M eq_refl). lia.
  - assert (S1 : s_sup s = true /\ s_count s1 = s_count s + 1).
    { destruct (t - s_time s <? 60000).
      - destruct (s_sup s); [destruct X as (_ & _ & X & _); auto|]. destruct (10 <? s_count s); destruct X as (_ & _ & _ & X); discriminate X.
      - destruct X as (_ & _ & X). destruct (s_sup s); [|destruct X as (X & _); discriminate X]. destruct X as [[_ X]|[_ X]]; [discriminate X|]. specialize (X (P eq_refl)). discriminate X. }
    destruct S1 as [S1 S2]. rewrite (IH ts t (n + 1) s1 (m + 1) W1 N2 H2 ltac:(lia) ltac:(intros; rewrite S2, (M S1); reflexivity) c ltac:(rewrite E; exact R)). lia.
Qed.
Theorem C135_number_in_warning : forall t0 l s tr w1 w0 k c,
  nondec t0 (map fst l) -> 0 <= t0 -> Forall (fun x => fst x < YEARS) l -> zlen l <= 4294967295 ->
  run (denials l) (fresh t0) = Some (s, tr) -> warnings tr = w1 ++ w0 :: repeat NoWarning k ++ [Suppressed c] -> shown w0 = true ->
  c = Z.of_nat k + 1.
Proof.
  intros t0 l s tr w1 w0 k c N T Y L R E W0. destruct (run_denials l (fresh t0) eq_refl) as (tr' & R' & W). rewrite R in R'. injection R' as _ <-.
  rewrite W in E. destruct (wrun_split _ _ _ _ E) as (a & b & EQ & A & B).
  assert (YA : Forall (fun x => x < YEARS) (map fst l)) by (apply Forall_map; exact Y).
  assert (LZ : zlen (map fst l) <= 4294967295) by (unfold zlen in *; rewrite map_length; exact L).
  rewrite EQ in *. apply nondec_app in N as [N1 N2]. apply Forall_app in YA as [Y1 Y2]. rewrite zlen_app in LZ. pose proof (zlen_nonneg b).
  assert (W1 : wok (last a t0) (0 + zlen a) (fst (wrun a (fresh t0)))).
  { apply wok_run; [|exact N1|exact Y1|lia]. unfold wok, fresh, packet_add. cbn. repeat split; try lia; try discriminate. }
  set (s1 := fst (wrun a (fresh t0))) in *. destruct b as [|t b]; [discriminate B|]. destruct N2 as [N2 N3]. inversion Y2; subst. rewrite zlen_cons in *. pose proof (zlen_nonneg b). cbn [wrun] in B.
  pose proof (wok_step _ t _ s1 W1 ltac:(lia) ltac:(lia)) as W2. destruct W1 as ((T1 & T2) & (C1 & C2) & P).
  pose proof (handle_wstep t s1 ltac:(lia) ltac:(lia) ltac:(lia)) as X. unfold wstep in X.
  destruct (handle_errno1 t s1) as [s2 x]. cbn [fst snd] in *. destruct (wrun b s2) as [s3 ws] eqn:E3. cbn [snd] in B. injection B as -> B.
  rewrite (suppressed_run k b t _ s2 1 W2 N3 H3 ltac:(lia)) with (c := c); [lia| |rewrite E3; exact B].
  intros SU. destruct (t - s_time s1 <? 60000).
  - destruct (s_sup s1); [destruct X as (_ & _ & _ & X); rewrite (X (P eq_refl)) in W0; discriminate W0|].
    destruct (10 <? s_count s1); destruct X as (X & _ & X2 & _); [symmetry; exact X2|congruence].
  - destruct X as (_ & X & _). symmetry. exact X.
Qed.
(** 12 denials are shown, 5 suppressed, "6 similar errors suppressed" is shown *)
Example C135_ex : exists s tr, run (denials (ex_denials 12 1000 ++ ex_denials 5 2000 ++ ex_denials 1 62000)) (fresh 500) = Some (s, tr) /\
  warnings tr = repeat Plain 12 ++ repeat NoWarning 5 ++ [Suppressed 6] /\ nondec 500 (map fst (ex_denials 12 1000 ++ ex_denials 5 2000 ++ ex_denials 1 62000)).
Proof. eexists _, _. split; [vm_compute; reflexivity|]. split; [vm_compute; reflexivity|]. vm_compute. intuition congruence. Qed.
(** so the number is not the number of suppressed errors *)
Theorem C135_number_refuted : exists l s tr n, run (denials l) (fresh 500) = Some (s, tr) /\ nondec 500 (map fst l) /\
  In (Suppressed n) (warnings tr) /\ n <> zlen (filter (fun w => negb (shown w)) (warnings tr)).
Proof.
  exists (ex_denials 12 1000 ++ ex_denials 5 2000 ++ ex_denials 1 62000). eexists _, _, 6. split; [vm_compute; reflexivity|]. split; [vm_compute; intuition congruence|].
  split; [vm_compute; tauto|]. vm_compute. discriminate.
Qed.

(** ** C136 *)
(** what [os] ask for last *)
Definition wanted (os : list op) (d : Z) : Z := fold_left (fun w o => match o with Apply _ _ p => p | _ => w end) os d.
Lemma step_proto o s s' r : step o s = Some (s', r) -> s_proto s' = match o with Apply _ _ p => if p =? 0 then s_proto s else p | _ => s_proto s end.
Proof.
  destruct o as [now p a m|a|now same p]; cbn [step].
  - intros H. injection H as H. unfold send in H. destruct (s_out s); [|injection H as <- _; reflexivity].
    destruct (0 <? a_res a); [injection H as <- _; reflexivity|]. destruct (a_errno a =? EPERM).
    + destruct (handle_errno1 now s) as [s1 w] eqn:E. injection H as <- _. unfold handle_errno1 in E.
      destruct (_ && _ && _) in E; [|destruct (_ && _) in E]; destruct (_ || _) in E; injection E as <- _; reflexivity.
    + destruct (negb _); injection H as <- _; reflexivity.
  - unfold event. destruct (_ =? 0); [intros H; injection H as <- _; reflexivity|]. destruct (_ <? _); [discriminate|]. destruct (le16_dec _); [|discriminate].
    destruct (_ <? _); [discriminate|]. destruct (_ && _); intros H; injection H as <- _; reflexivity.
  - unfold apply. destruct (Z.eqb_spec p 0) as [->|N]; intros H.
    + destruct (same && (0 =? s_proto s)); injection H as <- _; reflexivity.
    + destruct same, (Z.eqb_spec p (s_proto s)); cbn in H; injection H as <- _; cbn; congruence.
Qed.
(** A socket that was never configured for raw IP hands over received packets whole
    and is left alone (with the packets that wait) by a configuration that asks for
    the same; a socket configured for raw IP last skips the IP header.  [_partial]:
    see the refutations. *)
Theorem C136_kind_partial : forall now os s tr, run os (fresh now) = Some (s, tr) ->
  ((forall n b p, In (Apply n b p) os -> p = 0) -> skips_header s = false /\ forall n, apply n true 0 s = (s, None)) /\
  (wanted os 0 <> 0 -> skips_header s = true).
Proof.
  intros now os s tr R.
  assert (G : forall os s0 s tr d, run os s0 = Some (s, tr) -> (d <> 0 -> s_proto s0 = d) -> (wanted os d <> 0 -> s_proto s = wanted os d) /\
     ((forall n b p, In (Apply n b p) os -> p = 0) -> s_proto s = s_proto s0)).
  { clear. induction os as [|o os IH]; intros s0 s tr d R D; cbn [run] in R.
    - injection R as <- _. split; [exact D|reflexivity].
    - destruct (step o s0) as [[s1 r]|] eqn:E; [|discriminate]. destruct (run os s1) as [[s2 ts]|] eqn:E2; [|discriminate]. injection R as <- _.
      apply step_proto in E. unfold wanted. cbn [fold_left]. fold (wanted os (match o with Apply _ _ p => p | _ => d end)).
      destruct (IH s1 s2 ts (match o with Apply _ _ p => p | _ => d end) E2) as [I1 I2].
      + destruct o; try (intros ND; rewrite E; apply D; exact ND). intros ND. rewrite E. destruct (Z.eqb_spec protocol 0); congruence.
      + split; [exact I1|]. intros A. rewrite I2 by (intros n b p J; apply (A n b p); right; exact J). rewrite E.
        destruct o; try reflexivity. rewrite (A now same protocol (or_introl eq_refl)). reflexivity. }
  destruct (G os (fresh now) s tr 0 R ltac:(congruence)) as [G1 G2]. split.
  - intros A. specialize (G2 A). cbn in G2. unfold skips_header. rewrite G2. split; [reflexivity|]. intros n. unfold apply. rewrite G2. reflexivity.
  - intros A. unfold skips_header. rewrite (G1 A). destruct (Z.eqb_spec (wanted os 0) 0); [contradiction|reflexivity].
Qed.
Example C136_ex : exists s tr, run [Apply 1 false 0; Send 2 (pkt 1 [1; 2]) again enough; Apply 3 true 0] (fresh 0) = Some (s, tr) /\ skips_header s = false /\ s_write s = true /\
  exists s2 tr2, run [Apply 1 false 138; Apply 2 true 138] (fresh 0) = Some (s2, tr2) /\ skips_header s2 = true.
Proof. eexists _, _. vm_compute. repeat split. eexists _, _. repeat split. Qed.
(** After a change from raw IP to UDP the begin of every packet is still skipped, and
    the socket is opened again each time the same configuration is applied. *)
Theorem C136_back_to_udp_refuted : exists os s tr, run os (fresh 0) = Some (s, tr) /\ os = [Apply 1 false 138; Apply 2 true 0] /\ skips_header s = true /\
  forall n, snd (apply n true 0 s) = Some Udp.
Proof. eexists _, _, _. split; [|split; [reflexivity|]]; [vm_compute; reflexivity|]. split; [reflexivity|]. intros n. reflexivity. Qed.
(** A raw socket is never opened for the configured protocol. *)
Theorem C136_protocol_refuted : (exists now p s o, p <> 0 /\ snd (apply now false p s) = Some o /\ o <> Raw p) /\
  forall now same p s o, snd (apply now same p s) = Some o -> p <> 0 -> o = Raw 0.
Proof.
  split.
  - exists 1, 138, (fresh 0), (Raw 0). split; [discriminate|]. split; [reflexivity|discriminate].
  - intros now same p s o H N. unfold apply in H. destruct (same && (p =? s_proto s)); [discriminate|]. destruct (Z.eqb_spec p 0); [contradiction|]. injection H as <-. reflexivity.
Qed.

Print Assumptions C134_order_partial.
Print Assumptions C134_calls_partial.
Print Assumptions C134_large_refuted.
Print Assumptions C134_memory_refuted.
Print Assumptions C134_reconfigured_refuted.
Print Assumptions C135_limit.
Print Assumptions C135_reported.
Print Assumptions C135_number_in_warning.
Print Assumptions C135_number_refuted.
Print Assumptions C136_kind_partial.
Print Assumptions C136_back_to_udp_refuted.
Print Assumptions C136_protocol_refuted.
