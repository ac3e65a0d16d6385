(** Dropped addresses are hidden from later consumers (C59). *)
From Verif Require Import Base BitsModel BufLemmas NetaddrModel ReaderModel ReadDispModel ReaderSpec ReaderProofs ReadDispProofs ReadDropSpec.

Section D.
Context (cb : list event -> answer) (pkt : bytes).
Notation TF := (fun _ : rfault => True).
Notation dropped := (drops_address cb).

Fixpoint hidden (tr : list event) : Prop :=
  match tr with
  | [] => True
  | e :: tr' => hidden tr' /\ forall k, e_address e = Some k -> dropped k tr' -> only_its_end e tr'
  end.
Lemma hidden_at tr later e earlier k : hidden tr -> tr = later ++ e :: earlier -> e_address e = Some k -> dropped k earlier -> only_its_end e earlier.
Proof. intros H ->. induction later as [|a later IH]; cbn in H; [|tauto]. intros A B. eapply (proj2 H); eauto. Qed.

Lemma dropped_cons k e tr : dropped k (e :: tr) <-> (e_address e = Some k /\ a_res (cb (e :: tr)) = DROP_ADDRESS) \/ dropped k tr.
Proof.
  split.
  - intros (later & d & earlier & E & H1 & H2). destruct later as [|a later]; cbn in E; injection E as -> E.
    + subst. auto.
    + right. exists later, d, earlier. auto.
  - intros [[H1 H2]|(later & d & earlier & -> & H1 & H2)].
    + exists [], e, tr. auto.
    + exists (e :: later), d, earlier. auto.
Qed.
Lemma dropped_nil k : ~ dropped k [].
Proof. intros (later & d & earlier & E & _). now apply app_cons_not_nil in E. Qed.

(** new events are about [P] only *)
Definition adds (P : option (Z * Z) -> Prop) (st st' : ds) : Prop :=
  exists new, d_trace st' = new ++ d_trace st /\ Forall (fun e => P (e_address e)) new.
Lemma adds_refl P st : adds P st st. Proof. exists []. auto. Qed.
Lemma adds_trans P a b c : adds P a b -> adds P b c -> adds P a c.
Proof. intros (n1 & E1 & F1) (n2 & E2 & F2). exists (n2 ++ n1). rewrite E2, E1, app_assoc. split; auto. apply Forall_app; auto. Qed.
Lemma adds_weaken (P Q : option (Z * Z) -> Prop) a b : (forall k, P k -> Q k) -> adds P a b -> adds Q a b.
Proof. intros H (n & E & F). exists n. split; auto. eapply Forall_impl; [|exact F]. auto. Qed.
Lemma adds_other P st st' k : adds P st st' -> ~ P (Some k) -> dropped k (d_trace st') -> dropped k (d_trace st).
Proof.
  intros (n & E & F) N. rewrite E. clear E. induction n as [|e n IH]; cbn [app]; auto. inversion F; subst.
  intros D. apply dropped_cons in D as [[D _]|D]; auto. rewrite D in *. contradiction.
Qed.
Lemma call_adds st ev st' a : call cb st ev = (st', a) -> d_trace st' = ev :: d_trace st /\ a = cb (d_trace st') /\ adds (eq (e_address ev)) st st'.
Proof.
  unfold call. intros [= <- <-]. cbn. split; auto. split; auto. exists [ev]. cbn. split; auto.
Qed.
(** events about no address *)
Lemma adds_none st st' : adds (eq None) st st' -> hidden (d_trace st) -> hidden (d_trace st').
Proof.
  intros (n & E & F) H. rewrite E. clear E. induction n as [|e n IH]; cbn [app hidden]; auto. inversion F; subst. split; auto. intros k A. congruence.
Qed.

Section A.
Context (c : consumer) (x : ctx) (k : Z * Z).
Hypothesis X : e_address (EvStart 0 x) = Some k.
(** nothing dropped yet / dropped by the last callback of consumer [c] *)
Definition clear (st : ds) : Prop := hidden (d_trace st) /\ ~ dropped k (d_trace st).
Definition just (st : ds) : Prop := hidden (d_trace st) /\
  exists d tr, d_trace st = d :: tr /\ is_end d = false /\ e_consumer d = Some (c_id c).

Lemma call_clear st ev st' a : call cb st ev = (st', a) -> e_ctx ev = x -> e_consumer ev = Some (c_id c) -> clear st ->
  adds (eq (Some k)) st st' /\ hidden (d_trace st') /\ (a_res a <> DROP_ADDRESS -> clear st') /\ (is_end ev = false -> just st').
Proof.
  intros C E1 E2 [H1 H2]. apply call_adds in C as (T & -> & AD).
  assert (e_address ev = Some k) as EA by (unfold e_address in *; now rewrite E1).
  rewrite EA in AD. split; auto.
  assert (hidden (d_trace st')) as H by (rewrite T; cbn; split; auto; intros k' Ek D; congruence).
  split; auto. split.
  - intros N. split; auto. rewrite T. intros D. apply dropped_cons in D as [[_ D]|D]; auto. rewrite T in N. auto.
  - intros IE. split; auto. exists ev, (d_trace st). auto.
Qed.
(** the outcome of callbacks: a result, and whether the address was dropped *)
Definition after (st : ds) (res : Z) (st' : ds) : Prop :=
  adds (eq (Some k)) st st' /\ (clear st' \/ (just st' /\ res = DROP_ADDRESS)).

Definition sl_after (st : ds) (s : sl) : Prop := adds (eq (Some k)) st (sl_st s) /\ clear (sl_st s).
Lemma sched_step_after idx st s : sl_after st s ->
  wp TF (fun '(res, s') => after st res (sl_st s') /\ (res = OKAY -> clear (sl_st s'))) (sched_step cb pkt c x idx s).
Proof.
  intros [A1 A2]. unfold sched_step.
  match goal with |- wp _ _ (let (_, _) := ?Y in _) => assert (exists res tl im st', Y = (res, tl, im, st') /\ after st res st' /\ (res = OKAY -> clear st')) as (res & tl & im & st' & -> & B1 & B2) end.
  { match goal with |- context [match ?l with [] => _ | _ :: _ => _ end] => destruct (sl_tlvs s) as [|t r] end.
    - do 4 eexists. split; [reflexivity|]. split; [split; auto|auto].
    - destruct (_ && _).
      + destruct (call cb (sl_st s) _) as [st1 a] eqn:EC.
        destruct (call_clear _ _ _ _ EC eq_refl eq_refl A2) as (C1 & C2 & C3 & C4). pose proof (adds_trans _ _ _ _ A1 C1) as C5.
        destruct (Z.eqb_spec (a_res a) DROP_TLV) as [E|N].
        * do 4 eexists. split; [reflexivity|]. assert (clear st1) by (apply C3; rewrite E; discriminate). split; [split; auto|auto].
        * do 4 eexists. split; [reflexivity|]. split.
          -- split; auto. destruct (Z.eq_dec (a_res a) DROP_ADDRESS); auto.
          -- intros E. apply C3. rewrite E. discriminate.
      + do 4 eexists. split; [reflexivity|]. split; [split; auto|auto]. }
  destruct (negb (res =? OKAY)) eqn:ER; [cbn; auto|].
  assert (res = OKAY) as -> by (destruct (Z.eqb_spec res OKAY); [auto|discriminate]).
  eapply wp_bind with (Q := fun _ => True).
  { destruct (_ >=? 0); [|exact I]. destruct (sl_ents s); [exact I|]. destruct (sched_match _ _ _ _ _ _ _) as [[? ?]|]; exact I. }
  intros [failed cur] _. specialize (B2 eq_refl).
  assert (after st OKAY st') as B3 by (split; [apply B1|auto]).
  destruct (match tl with [] => _ | _ :: _ => _ end) as [[pos tdone] tlvs].
  destruct (_ >? 0); [destruct (sl_ents s); [exact I|]|]; cbn; auto.
Qed.

Lemma sched_loop_after idx st fuel : forall s, sl_after st s ->
  wp TF (fun '(res, s') => after st res (sl_st s') /\ (res = OKAY -> clear (sl_st s'))) (sched_loop cb pkt fuel c x idx s).
Proof.
  assert (forall s, sl_after st s -> wp TF (fun '(res, s') => after st res (sl_st s') /\ (res = OKAY -> clear (sl_st s'))) (Ok (OKAY, s))) as X0.
  { intros s [H1 H2]. cbn. split; [split; auto|auto]. }
  induction fuel as [|fuel IH]; intros s H; cbn [sched_loop].
  - destruct (sl_tlvs s) eqn:E1; [destruct (sl_ents s) eqn:E2|]; try exact I. now apply X0.
  - assert (wp TF (fun '(res, s') => after st res (sl_st s') /\ (res = OKAY -> clear (sl_st s')))
       (do '(res, s) <- sched_step cb pkt c x idx s; if negb (res =? OKAY) then Ok (res, s) else sched_loop cb pkt fuel c x idx s)) as Y.
    { eapply wp_bind; [apply (sched_step_after idx st); auto|]. intros [res s1] (A1 & A2).
      destruct (Z.eqb_spec res OKAY) as [->|N]; cbn [negb]; [|cbn; auto]. apply IH. split; [apply A1|auto]. }
    destruct (sl_tlvs s) eqn:E1; [destruct (sl_ents s) eqn:E2|]; try exact Y. now apply X0.
Qed.

Lemma schedule_after tlvs idx st : clear st ->
  wp TF (fun '(res, _, st') => after st res st' /\ (res = OKAY -> clear st')) (schedule_tlvblock cb pkt c x tlvs idx st).
Proof.
  intros C. unfold schedule_tlvblock. eapply wp_bind; [apply (sched_loop_after idx st); split; [apply adds_refl|auto]|].
  intros [res s] (A1 & A2). destruct (Z.eqb_spec res OKAY) as [->|N]; cbn [negb]; [|cbn; auto]. specialize (A2 eq_refl).
  match goal with |- wp _ _ (let (_, _) := ?Y in _) => assert (exists st' res d, Y = (st', res, d) /\ after st res st' /\ (res = OKAY \/ res = DROP_TLV -> clear st')) as (st' & res & d & -> & B1 & B2) end.
  { assert (forall f v, exists st' res d, (let '(st, a) := call cb (sl_st s) (EvBlock (c_id c) x f v) in (st, a_res a, a_drops a)) = (st', res, d) /\ after st res st' /\ (res = OKAY \/ res = DROP_TLV -> clear st')) as Y.
    { intros f v. destruct (call cb _ _) as [st1 a] eqn:EC. destruct (call_clear _ _ _ _ EC eq_refl eq_refl A2) as (C1 & C2 & C3 & C4).
      do 3 eexists. split; [reflexivity|]. split.
      - split; [eapply adds_trans; [apply A1|exact C1]|]. destruct (Z.eq_dec (a_res a) DROP_ADDRESS); auto.
      - intros E. apply C3. destruct E as [-> | ->]; discriminate. }
    destruct (_ && _); [apply Y|]. destruct (_ && _); [apply Y|]. do 3 eexists. split; [reflexivity|]. split; [split; [apply A1|]|]; auto. }
  destruct (Z.eqb_spec res DROP_TLV) as [->|N]; cbn.
  - split; auto. split; [apply B1|auto].
  - split; auto.
Qed.
End A.

(** no drop of address [i] of block [o] is unknown *)
Definition known (ab : ablock) (st : ds) : Prop := forall i, dropped (ab_ptr ab, i) (d_trace st) -> zmem i (ab_drop ab) = true.

Lemma addr_loop_hidden c seq h is_ : forall ab st, hidden (d_trace st) -> known ab st ->
  wp TF (fun '(res, ab', st') => adds (fun k => exists i, k = Some (ab_ptr ab, i)) st st' /\ hidden (d_trace st') /\ ab_ptr ab' = ab_ptr ab /\
           (res = OKAY -> known ab' st'))
    (addr_loop cb pkt c seq h is_ ab st).
Proof.
  induction is_ as [|i is_ IH]; intros ab st H K; cbn [addr_loop].
  - cbn. split; [apply adds_refl|]. auto.
  - destruct (zmem i (ab_drop ab)) eqn:ED; [apply IH; auto|].
    eapply wp_bind with (Q := fun _ => True); [destruct (assemble_addr _ _ _ _); exact I|]. intros [addr na] _.
    set (x := mkactx seq h ab na i). set (k := (ab_ptr ab, i)).
    assert (e_address (EvStart 0 x) = Some k) as EX by reflexivity.
    assert (clear k st) as C0 by (split; auto; intros D; apply K in D; congruence).
    match goal with |- wp _ _ (let (_, _) := ?Y in _) => assert (exists st1 res, Y = (st1, res) /\ after c k st res st1 /\ (res = OKAY -> clear k st1)) as (st1 & res1 & -> & A1 & A2) end.
    { destruct (c_start c).
      - destruct (call cb st _) as [st1 a] eqn:EC. destruct (call_clear c x k EX _ _ _ _ EC eq_refl eq_refl C0) as (C1 & C2 & C3 & C4).
        do 2 eexists. split; [reflexivity|]. split.
        + split; auto. destruct (Z.eq_dec (a_res a) DROP_ADDRESS); auto.
        + intros E. apply C3. rewrite E. discriminate.
      - do 2 eexists. split; [reflexivity|]. split; [split; [apply adds_refl|auto]|auto]. }
    apply (wp_bind _ (fun '(res, _, st') => after c k st res st' /\ (res = OKAY -> clear k st'))).
    { destruct (Z.eqb_spec res1 OKAY) as [->|N]; [|cbn; auto].
      eapply wp_mono; [apply (schedule_after c x k EX); auto|]. intros [[r t] s] [B1 B2]. split; auto.
      split; [eapply adds_trans; [apply A1|apply B1]|apply B1]. }
    intros [[res2 tlvs'] st2] [B1 B2].
    assert (hidden (d_trace st2)) as H2 by (destruct B1 as (_ & [C|[J _]]); [apply C|apply J]).
    match goal with |- wp _ _ (let (_, _) := ?Y in _) => assert (exists st3 res, Y = (st3, res) /\ adds (eq (Some k)) st st3 /\ hidden (d_trace st3) /\ (res = OKAY -> clear k st3)) as (st3 & res3 & -> & D1 & D2 & D3) end.
    { destruct (c_end c).
      - destruct (call cb st2 _) as [st3 a] eqn:EC. destruct B1 as (B0 & [C|[J R]]).
        + destruct (call_clear c x k EX _ _ _ _ EC eq_refl eq_refl C) as (C1 & C2 & C3 & C4).
          do 2 eexists. split; [reflexivity|]. split; [eapply adds_trans; eauto|]. split; auto.
          unfold OKAY. intros E. apply C3. intros E2. rewrite E2 in E. unfold DROP_ADDRESS in E. destruct (Z.gtb_spec 2 res2); lia.
        + apply call_adds in EC as (T & _ & AD). do 2 eexists. split; [reflexivity|]. split; [eapply adds_trans; [exact B0|exact AD]|].
          split.
          * rewrite T. cbn. split; auto. intros k' Ek D. destruct J as (_ & d & tr & ET & J1 & J2). split; auto. exists d, tr. auto.
          * subst res2. unfold OKAY, DROP_ADDRESS. intros E. destruct (Z.gtb_spec (a_res a) 2); lia.
      - do 2 eexists. split; [reflexivity|]. split; [apply B1|]. auto. }
    assert (adds (fun k => exists i, k = Some (ab_ptr ab, i)) st st3) as AD.
    { eapply adds_weaken; [|exact D1]. intros k' <-. exists i. reflexivity. }
    assert (forall j, j <> i -> dropped (ab_ptr ab, j) (d_trace st3) -> zmem j (ab_drop ab) = true) as OT.
    { intros j N D. apply K. eapply adds_other; [exact D1| |exact D]. unfold k. intros E. injection E as E. congruence. }
    assert (forall ab2, ab_ptr ab2 = ab_ptr ab -> known ab2 st3 ->
      wp TF (fun '(res, ab', st') => adds (fun k => exists i, k = Some (ab_ptr ab, i)) st st' /\ hidden (d_trace st') /\ ab_ptr ab' = ab_ptr ab /\ (res = OKAY -> known ab' st'))
        (addr_loop cb pkt c seq h is_ ab2 st3)) as GO.
    { intros ab2 EP K2. eapply wp_mono; [apply (IH ab2 st3); auto|]. intros [[r a] s] (E1 & E2 & E3 & E4). rewrite EP in *.
      split; [eapply adds_trans; eauto|auto]. }
    destruct (Z.eqb_spec res3 DROP_ADDRESS) as [->|N1].
    + apply GO; [reflexivity|]. intros j D. cbn. destruct (Z.eqb_spec j i) as [|N]; auto. exact (OT j N D).
    + destruct (Z.eqb_spec res3 OKAY) as [->|N2]; cbn [negb].
      * apply GO; [reflexivity|]. intros j D. cbn. destruct (Z.eq_dec j i) as [->|N]; [|exact (OT j N D)]. exfalso. apply (proj2 (D3 eq_refl)). exact D.
      * cbn. split; auto. split; auto. split; auto. intros; exfalso; auto.
Qed.

Definition ptrs_in (abs : list ablock) (k : option (Z * Z)) : Prop := exists ab i, In ab abs /\ k = Some (ab_ptr ab, i).

Lemma blocks_loop_hidden c seq h abs : forall st, hidden (d_trace st) -> NoDup (map ab_ptr abs) -> Forall (fun ab => known ab st) abs ->
  wp TF (fun '(res, abs', st') => adds (ptrs_in abs) st st' /\ hidden (d_trace st') /\ map ab_ptr abs' = map ab_ptr abs /\
           (res = OKAY -> Forall (fun ab => known ab st') abs'))
    (blocks_loop cb pkt c seq h abs st).
Proof.
  induction abs as [|ab abs IH]; intros st H ND K; cbn [blocks_loop].
  - cbn. split; [apply adds_refl|]. auto.
  - inversion K; subst. inversion ND; subst. eapply wp_bind; [apply addr_loop_hidden; auto|].
    intros [[res ab'] st1] (A1 & A2 & A3 & A4).
    assert (adds (ptrs_in (ab :: abs)) st st1) as AD.
    { eapply adds_weaken; [|exact A1]. intros k (i & ->). exists ab, i. split; [left; auto|auto]. }
    destruct (Z.eqb_spec res OKAY) as [->|N]; cbn [negb].
    2:{ cbn. split; auto. split; auto. split; [now rewrite A3|]. intros; exfalso; auto. }
    assert (Forall (fun ab => known ab st1) abs) as K1.
    { rewrite Forall_forall in *. intros b Hb i D. apply H3; auto. eapply adds_other; [exact A1| |exact D].
      intros (j & E). injection E as E _. apply H4. rewrite <- E. now apply in_map. }
    eapply wp_bind; [apply (IH st1); auto|]. intros [[res2 abs'] st2] (B1 & B2 & B3 & B4). cbn.
    split; [eapply adds_trans; [exact AD|]; eapply adds_weaken; [|exact B1]; intros k (b & i & Hb & ->); exists b, i; split; [right; auto|auto]|].
    split; auto. split; [now rewrite A3, B3|]. intros E. constructor; auto.
    intros i D. apply (A4 eq_refl). eapply adds_other; [exact B1| |exact D].
    intros (b & j & Hb & E2). injection E2 as E2 _. apply H4. rewrite <- A3, E2. now apply in_map.
Qed.

(** message callbacks: about no address *)
Lemma sched_step_none c x idx st s : x_block x = None -> adds (eq None) st (sl_st s) ->
  wp TF (fun '(res, s') => adds (eq None) st (sl_st s')) (sched_step cb pkt c x idx s).
Proof.
  intros EX A1. unfold sched_step.
  match goal with |- wp _ _ (let (_, _) := ?Y in _) => assert (exists res tl im st', Y = (res, tl, im, st') /\ adds (eq None) st st') as (res & tl & im & st' & -> & B1) end.
  { destruct (sl_tlvs s) as [|t r]; [do 4 eexists; split; [reflexivity|auto]|]. destruct (_ && _); [|do 4 eexists; split; [reflexivity|auto]].
    destruct (call cb (sl_st s) _) as [st1 a] eqn:EC. apply call_adds in EC as (T & -> & AD). unfold e_address in AD. cbn in AD. rewrite EX in AD.
    pose proof (adds_trans _ _ _ _ A1 AD). destruct (_ =? DROP_TLV); do 4 eexists; (split; [reflexivity|auto]). }
  destruct (negb (res =? OKAY)); [cbn; auto|].
  eapply wp_bind with (Q := fun _ => True).
  { destruct (_ >=? 0); [|exact I]. destruct (sl_ents s); [exact I|]. destruct (sched_match _ _ _ _ _ _ _) as [[? ?]|]; exact I. }
  intros [failed cur] _.
  destruct (match tl with [] => _ | _ :: _ => _ end) as [[pos tdone] tlvs].
  destruct (_ >? 0); [destruct (sl_ents s); [exact I|]|]; cbn; auto.
Qed.
Lemma schedule_none c x tlvs idx st : x_block x = None ->
  wp TF (fun '(res, _, st') => adds (eq None) st st') (schedule_tlvblock cb pkt c x tlvs idx st).
Proof.
  intros EX. unfold schedule_tlvblock.
  apply (wp_bind _ (fun '(res, s') => adds (eq None) st (sl_st s'))).
  - assert (forall fuel s, adds (eq None) st (sl_st s) -> wp TF (fun '(res, s') => adds (eq None) st (sl_st s')) (sched_loop cb pkt fuel c x idx s)) as Y.
    { induction fuel as [|fuel IH]; intros s H; cbn [sched_loop].
      - destruct (sl_tlvs s); [destruct (sl_ents s)|]; try exact I. exact H.
      - assert (wp TF (fun '(res, s') => adds (eq None) st (sl_st s'))
         (do '(res, s) <- sched_step cb pkt c x idx s; if negb (res =? OKAY) then Ok (res, s) else sched_loop cb pkt fuel c x idx s)) as Y.
        { eapply wp_bind; [apply (sched_step_none c x idx st); auto|]. intros [res s1] A1. destruct (negb _); cbn; auto. }
        destruct (sl_tlvs s); [destruct (sl_ents s)|]; try exact Y. exact H. }
    apply Y. apply adds_refl.
  - intros [res s] A1. destruct (negb (res =? OKAY)); [cbn; auto|].
    match goal with |- wp _ _ (let (_, _) := ?Y in _) => assert (exists st' res d, Y = (st', res, d) /\ adds (eq None) st st') as (st' & res' & d & -> & B1) end.
    { assert (forall f v, exists st' res d, (let '(st, a) := call cb (sl_st s) (EvBlock (c_id c) x f v) in (st, a_res a, a_drops a)) = (st', res, d) /\ adds (eq None) st st') as Y.
      { intros f v. destruct (call cb _ _) as [st1 a] eqn:EC. apply call_adds in EC as (T & -> & AD). unfold e_address in AD. cbn in AD. rewrite EX in AD.
        do 3 eexists. split; [reflexivity|]. eapply adds_trans; eauto. }
      destruct (_ && _); [apply Y|]. destruct (_ && _); [apply Y|]. do 3 eexists. split; [reflexivity|auto]. }
    destruct (_ =? DROP_TLV); cbn; auto.
Qed.

Lemma call_none st ev st' a : call cb st ev = (st', a) -> x_block (e_ctx ev) = None -> adds (eq None) st st'.
Proof. intros EC EX. apply call_adds in EC as (T & -> & AD). unfold e_address in AD. now rewrite EX in AD. Qed.
Lemma end_cbs_none x ty l : x_block x = None -> forall res st, adds (eq None) st (snd (end_cbs cb x ty l res st)).
Proof.
  intros EX. induction l as [|c l IH]; intros res st; cbn [end_cbs]; [apply adds_refl|]. destruct (_ && _ && _); auto.
  destruct (call cb st _) as [st1 a] eqn:EC. apply call_none in EC; auto. eapply adds_trans; [exact EC|apply IH].
Qed.

Lemma known_none ab st st' : adds (eq None) st st' -> known ab st -> known ab st'.
Proof. intros A K i D. apply K. eapply adds_other; eauto. discriminate. Qed.
Lemma known_all_none abs st st' : adds (eq None) st st' -> Forall (fun ab => known ab st) abs -> Forall (fun ab => known ab st') abs.
Proof. intros A K. eapply Forall_impl; [|exact K]. intros ab. now apply known_none. Qed.

Definition ptr_of (ps : list Z) (k : option (Z * Z)) : Prop := k = None \/ exists p i, In p ps /\ k = Some (p, i).
Lemma none_ptr ps st st' : adds (eq None) st st' -> adds (ptr_of ps) st st'.
Proof. apply adds_weaken. intros k <-. left. auto. Qed.

Lemma cons_loop_hidden ps all seq h rest : NoDup ps -> forall i grp o1 tlvs abs st, hidden (d_trace st) -> map ab_ptr abs = ps ->
  Forall (fun ab => known ab st) abs ->
  wp TF (fun '(res, grp', tlvs', abs', st') => adds (ptr_of ps) st st' /\ hidden (d_trace st'))
    (cons_loop cb pkt all seq h i rest grp o1 tlvs abs st).
Proof.
  intros ND. induction rest as [|c rest IH]; intros i grp o1 tlvs abs st H EP K; cbn [cons_loop].
  - cbn. split; [apply adds_refl|auto].
  - destruct (negb (c_handles (mh_type h) c)); [apply IH; auto|].
    set (x := mkctx KMessage seq (Some h) na_unspec 0).
    match goal with |- wp _ _ (let (_, _) := ?Y in _) => assert (exists res g st1, Y = (res, g, st1) /\ adds (eq None) st st1) as (res & g & st1 & -> & A1) end.
    { destruct grp as [[f l]|]; [destruct (c_order c >? o1)|]; try (do 3 eexists; split; [reflexivity|apply adds_refl]).
      unfold schedule_end. pose proof (end_cbs_none x (mh_type h) (rev (range all f l)) eq_refl OKAY (set_kind st KMessage)) as E.
      destruct (end_cbs _ _ _ _ _ _) as [r s]. do 3 eexists. split; [reflexivity|exact E]. }
    pose proof (adds_none _ _ A1 H) as H1. pose proof (known_all_none _ _ _ A1 K) as K1. pose proof (none_ptr ps _ _ A1) as P1.
    destruct (negb (res =? OKAY)); [cbn; auto|].
    destruct (c_addrblock c).
    + eapply wp_bind; [apply (blocks_loop_hidden c seq h abs (set_kind st1 KAddress)); auto; now rewrite EP|].
      intros [[res2 abs'] st2] (B1 & B2 & B3 & B4).
      assert (adds (ptr_of ps) st st2) as P2.
      { eapply adds_trans; [exact P1|]. eapply adds_weaken; [|exact B1]. intros k (ab & j & Hab & ->). right. exists (ab_ptr ab), j.
        split; auto. rewrite <- EP. now apply in_map. }
      destruct (Z.eqb_spec res2 OKAY) as [->|N]; cbn [negb]; [|cbn; auto].
      eapply wp_mono; [apply (IH (S i) g o1 tlvs abs' st2); auto; congruence|].
      intros [[[[r g'] t'] a'] s'] (C1 & C2). split; auto. eapply adds_trans; eauto.
    + apply (wp_bind _ (fun '(res, _, st') => adds (eq None) st1 st')).
      { unfold schedule_msgtlv. 
        match goal with |- wp _ _ (let (_, _) := ?Y in _) => assert (exists st2 r, Y = (st2, r) /\ adds (eq None) st1 st2) as (st2 & r & -> & E1) end.
        { destruct (c_start c); [|do 2 eexists; split; [reflexivity|apply (adds_refl _ st1)]].
          destruct (call cb _ _) as [st2 a] eqn:EC. apply call_none in EC; auto. do 2 eexists. split; [reflexivity|exact EC]. }
        destruct (r =? OKAY); [|cbn; auto]. eapply wp_mono; [apply (schedule_none c x tlvs 0 st2 eq_refl)|].
        intros [[a b] d] E. eapply adds_trans; eauto. }
      intros [[res2 tlvs'] st2] B1. pose proof (adds_trans _ _ _ _ P1 (none_ptr ps _ _ B1)) as P2.
      pose proof (adds_none _ _ B1 H1) as H2. pose proof (known_all_none _ _ _ B1 K1) as K2.
      destruct (negb (res2 =? OKAY)); [cbn; auto|].
      match goal with |- wp _ _ (cons_loop _ _ _ _ _ _ _ ?G _ _ _ _) => eapply wp_mono; [apply (IH (S i) G (c_order c) tlvs' abs st2); auto|] end.
      intros [[[[r g'] t'] a'] s'] (C1 & C2). split; auto. eapply adds_trans; eauto.
Qed.

Lemma dispatch_hidden all seq msg st : hidden (d_trace st) -> NoDup (map ab_ptr (ms_addrs msg)) -> Forall (fun ab => known ab st) (ms_addrs msg) ->
  wp TF (fun '(res, st') => adds (ptr_of (map ab_ptr (ms_addrs msg))) st st' /\ hidden (d_trace st')) (dispatch_message cb pkt all seq msg st).
Proof.
  intros H ND K. unfold dispatch_message. eapply wp_bind; [apply (cons_loop_hidden (map ab_ptr (ms_addrs msg))); auto|].
  intros [[[[res grp] tlvs] abs] st1] (A1 & A2). destruct grp as [[f l]|]; [|cbn; auto]. unfold schedule_end.
  match goal with |- context [end_cbs cb ?x ?ty ?l ?r ?s] => pose proof (end_cbs_none x ty l eq_refl r s) as E; destruct (end_cbs cb x ty l r s) as [r' s'] end.
  cbn in *. split; [eapply adds_trans; [exact A1|]; apply none_ptr; exact E|]. eapply adds_none; [exact E|auto].
Qed.
End D.

(** ** Positions of the address blocks of a message *)
Section P.
Context (alloc : nat -> bool) (pkt : bytes).
Notation TF := (fun _ : rfault => True).
Lemma wp_any {A} (x : outcome A) : wp TF (fun _ => True) x. Proof. destruct x; exact I. Qed.
Lemma parse_addrblock_ptr al ptr eob : wp TF (fun '(_, _, ab) => forall a, ab = Some a -> ab_ptr a = ptr) (parse_addrblock pkt al ptr eob).
Proof.
  unfold parse_addrblock.
  eapply wp_bind; [apply wp_any|]. intros [[num p1] e1] _. destruct (num =? 0); [cbn; discriminate|].
  eapply wp_bind; [apply wp_any|]. intros [[fl p2] e2] _.
  eapply wp_bind; [apply wp_any|]. intros [[[[[co p3] e3] ms] ml] ad] _. destruct (negb (co =? OKAY)); [cbn; discriminate|].
  eapply wp_bind; [apply wp_any|]. intros [[[[co2 p4] e4] ml2] ad2] _. destruct (negb (co2 =? OKAY)); [cbn; discriminate|].
  destruct (_ >? _); [cbn; discriminate|].
  eapply wp_bind; [apply wp_any|]. intros [[[co3 p5] pl] px] _. destruct (negb (co3 =? OKAY)); [cbn; discriminate|].
  destruct (_ >? _); [cbn; discriminate|]. destruct (negb (e4 =? OKAY)); [cbn; discriminate|]. cbn. intros a [= <-]. reflexivity.
Qed.

Hypothesis B : all_bytes pkt.
Lemma wp_and {A} P (Q R : A -> Prop) x : wp P Q x -> wp TF R x -> wp TF (fun a => Q a /\ R a) x.
Proof. destruct x; cbn; auto. Qed.
Lemma wp_triv {A} P (Q : A -> Prop) x : wp P Q x -> wp TF Q x. Proof. destruct x; cbn; auto. Qed.

Definition ascending (lo hi : Z) (abs : list ablock) : Prop :=
  NoDup (map ab_ptr abs) /\ Forall (fun a => lo <= ab_ptr a < hi /\ ab_drop a = []) abs.
Lemma addrblocks_loop_ptrs lo al end_ fuel : forall ptr acc m, 1 <= al <= 16 -> 0 <= lo <= ptr -> end_ <= zlen pkt -> ascending lo (Z.min ptr end_) acc ->
  wp TF (fun '(res, p, acc', m') => ascending lo end_ acc') (addrblocks_loop alloc pkt fuel al ptr end_ acc m).
Proof.
  assert (forall ptr acc, ascending lo (Z.min ptr end_) acc -> ascending lo end_ acc) as X.
  { intros ptr acc [H1 H2]. split; auto. eapply Forall_impl; [|exact H2]. cbn. intuition lia. }
  induction fuel as [|fuel IH]; intros ptr acc m Hal H0 H1 HA; cbn [addrblocks_loop].
  - destruct (Z.leb_spec end_ ptr); [|exact I]. cbn. eauto.
  - destruct (Z.leb_spec end_ ptr); [cbn; eauto|].
    destruct (negb (alloc (m_n m))); [cbn; eauto|].
    eapply wp_bind; [apply (wp_and _ _ _ _ (parse_addrblock_wp pkt B al ptr end_ Hal ltac:(lia) H1) (parse_addrblock_ptr al ptr end_))|].
    intros [[res p] [ab|]] [[_ R] E]; [|cbn; eauto]. destruct R as (_ & R1 & R2 & _ & R3). specialize (E ab eq_refl).
    eapply wp_bind; [eapply wp_triv, (parse_tlvblock_wp alloc pkt B lo p end_ (ab_num ab)); try lia|].
    { destruct R2. unfold is_u8. lia. }
    intros [[[res2 p2] tl] m2] (_ & _ & _ & _ & S5 & _). destruct (Z.eqb_spec res2 OKAY) as [->|N]; cbn [negb]; [|cbn; eauto].
    specialize (S5 eq_refl). apply IH; auto; try lia.
    destruct HA as [A1 A2]. split.
    + rewrite map_app. cbn. rewrite E.
      apply NoDup_rev in A1. rewrite <- (rev_involutive (map ab_ptr acc ++ [ptr])). apply NoDup_rev. rewrite rev_app_distr. cbn. constructor; auto.
      rewrite <- in_rev. intros I. apply in_map_iff in I as (a & E1 & E2). rewrite Forall_forall in A2. specialize (A2 a E2). lia.
    + apply Forall_app. split; [eapply Forall_impl; [|exact A2]; cbn; intros a [Ha ?]; split; [lia|auto]|]. constructor; [|constructor]. cbn. rewrite E. split; [lia|auto].
Qed.

Lemma parse_message_ptrs start eob m : 0 <= start <= eob -> eob <= zlen pkt ->
  wp TF (fun '(res, msg, m') => ascending start (start + mh_size (ms_hdr msg)) (ms_addrs msg)) (parse_message alloc pkt start eob m).
Proof.
  intros H0 H1. unfold parse_message.
  eapply wp_bind; [eapply wp_triv, (parse_msgheader_wp pkt B); auto|]. intros [[e p] h] (E & Hs & Hal & Hok).
  assert (forall lo hi, ascending lo hi []) as X by (intros; split; constructor).
  destruct (Z.eqb_spec e OKAY) as [->|]; cbn [negb]; [|cbn; auto].
  destruct (Hok eq_refl) as (Hp & Hsz & Hsf).
  eapply wp_bind; [eapply wp_triv, (parse_tlvblock_wp alloc pkt B start); auto; unfold is_u8; try lia|].
  intros [[[e2 p2] l] m2] (S1 & S2 & S3 & S4 & S5 & S6).
  destruct (Z.eqb_spec e2 OKAY) as [->|N]; cbn [negb]; [|cbn; auto]. specialize (S5 eq_refl).
  eapply wp_bind; [apply (addrblocks_loop_ptrs start); auto; try lia|].
  intros [[[e3 p3] abs] m3] A. cbn. exact A.
Qed.

Context (cb : list event -> answer) (fwd : bool).
(** all callbacks so far are about addresses before position [p] *)
Definition before_pos (p : Z) (tr : list event) : Prop := Forall (fun e => forall o i, e_address e = Some (o, i) -> o < p) tr.
Lemma before_dropped p tr o i : before_pos p tr -> drops_address cb (o, i) tr -> o < p.
Proof. intros F (l & e & r & -> & E & _). apply Forall_app in F as [_ F]. inversion F; subst. eauto. Qed.

Lemma handle_message_hidden all seq start eob st m : 0 <= start <= eob -> eob <= zlen pkt -> hidden cb (d_trace st) -> before_pos start (d_trace st) ->
  wp TF (fun '(res, p, st', m') => hidden cb (d_trace st') /\ (res = OKAY -> before_pos p (d_trace st')))
    (handle_message cb pkt alloc fwd all seq start eob st m).
Proof.
  intros H0 H1 H BP. unfold handle_message.
  eapply wp_bind; [apply (wp_and _ _ _ _ (parse_message_wp alloc pkt B start eob m H0 H1) (parse_message_ptrs start eob m H0 H1))|].
  intros [[e msg] m1] [(E & Es & _ & _ & Hok) [ND AS]]. cbn zeta in Hok.
  apply (wp_bind _ (fun '(res, st') => hidden cb (d_trace st') /\ (res = OKAY \/ res > 0 -> e = OKAY /\ before_pos (start + mh_size (ms_hdr msg)) (d_trace st')))).
  { destruct (Z.eqb_spec e OKAY) as [->|N].
    - eapply wp_mono; [apply (dispatch_hidden cb pkt all seq msg (reset_dnf st)); auto|].
      + rewrite Forall_forall in *. intros ab Hab i D. exfalso. apply (before_dropped start) in D; auto. specialize (AS ab Hab). lia.
      + intros [res st'] [(new & E1 & F1) A2]. split; auto. intros _. split; auto. rewrite E1. apply Forall_app.
        destruct (Hok eq_refl) as (S1 & _). split.
        * eapply Forall_impl; [|exact F1]. cbn. intros ev [E3|(p & j & I3 & E3)] o i E4; rewrite E3 in E4; [discriminate|]. injection E4 as <- <-.
          apply in_map_iff in I3 as (ab & <- & I3). rewrite Forall_forall in AS. specialize (AS ab I3). lia.
        * eapply Forall_impl; [|exact BP]. cbn. intros ev X o i X2. specialize (X o i X2). lia.
    - cbn. split; auto. unfold OKAY in *. intros; lia. }
  intros [res st1] [A1 A2]. cbn [wp].
  match goal with |- context [hidden cb (d_trace ?s)] => set (st2 := s) end.
  assert (adds (eq None) st1 st2) as AD.
  { unfold st2. destruct (_ && _ && _ && _); [|apply adds_refl]. destruct (call cb (set_kind st1 KMessage) _) as [st3 a] eqn:EC. cbn [fst].
    apply call_none in EC; [exact EC|reflexivity]. }
  split; [eapply adds_none; eauto|]. intros R.
  assert (res = OKAY \/ res > 0) as R2.
  { unfold OKAY, DROP_PACKET in *. destruct (Z.gtb_spec res 0); [right; lia|left; cbn in R; auto]. }
  destruct (A2 R2) as [_ A3]. destruct AD as (new & -> & F). apply Forall_app. split; auto.
  eapply Forall_impl; [|exact F]. cbn. intros ev X o i X2. congruence.
Qed.

Lemma message_loop_hidden all seq eob fuel : forall ptr st m, 0 <= ptr <= eob -> eob <= zlen pkt -> hidden cb (d_trace st) -> before_pos ptr (d_trace st) ->
  st_ok pkt st ->
  wp TF (fun '(res, st', m') => hidden cb (d_trace st')) (message_loop cb pkt alloc fwd fuel all seq ptr eob st m).
Proof.
  induction fuel as [|fuel IH]; intros ptr st m H0 H1 H BP OK; cbn [message_loop]; (destruct (Z.leb_spec eob ptr); [cbn; auto|]); [exact I|].
  eapply wp_bind; [apply (wp_and _ _ _ _ (handle_message_wp cb alloc pkt B fwd all seq ptr eob st m H0 H1 OK) (handle_message_hidden all seq ptr eob st m H0 H1 H BP))|].
  intros [[[res p] st1] m1] [(A1 & _ & _ & _ & _ & A2) [A3 A4]]. destruct (Z.eqb_spec res OKAY) as [->|N]; cbn [negb]; [|cbn; auto].
  destruct (A2 eq_refl) as (size & -> & S1 & S2 & _). apply IH; auto; lia.
Qed.

Lemma pkt_loop_none rest seq ht : forall tlvs n st, wp TF (fun '(res, tlvs', n', st') => adds (eq None) st st') (pkt_loop cb pkt rest seq ht tlvs n st).
Proof.
  induction rest as [|c rest IH]; intros tlvs n st; cbn [pkt_loop]; [apply adds_refl|].
  set (x := mkctx KPacket seq None na_unspec 0).
  match goal with |- wp _ _ (let (_, _) := ?Y in _) => assert (exists st2 r, Y = (st2, r) /\ adds (eq None) st st2) as (st2 & r & -> & E1) end.
  { destruct (c_start c); [|do 2 eexists; split; [reflexivity|apply adds_refl]].
    destruct (call cb _ _) as [st2 a] eqn:EC. apply call_none in EC; auto. do 2 eexists. split; [reflexivity|exact EC]. }
  destruct (negb (r =? OKAY)); [cbn; auto|].
  assert (forall t st3, adds (eq None) st st3 -> wp TF (fun '(res, tlvs', n', st') => adds (eq None) st st') (pkt_loop cb pkt rest seq ht t (S n) st3)) as GO.
  { intros t st3 A. eapply wp_mono; [apply IH|]. intros [[[a b] d] s] X. eapply adds_trans; eauto. }
  destruct (_ && _); [|auto].
  eapply wp_bind; [apply (schedule_none cb pkt c x tlvs 0 st2 eq_refl)|]. intros [[r2 t2] st3] E2. pose proof (adds_trans _ _ _ _ E1 E2).
  destruct (negb (r2 =? OKAY)); [cbn; auto|]. auto.
Qed.
Lemma pkt_end_none l seq res : forall st, adds (eq None) st (pkt_end cb l seq res st).
Proof.
  induction l as [|c l IH]; intros st; cbn [pkt_end]; [apply adds_refl|]. destruct (c_end c); auto.
  destruct (call cb st _) as [st2 a] eqn:EC. cbn [fst]. apply call_none in EC; auto. eapply adds_trans; [exact EC|apply IH].
Qed.

Lemma handle_packet_hidden pcons mcons m : wp TF (fun '(res, tr, m') => hidden cb tr) (handle_packet cb pkt alloc fwd pcons mcons m).
Proof.
  pose proof (zlen_nonneg pkt) as LN. unfold handle_packet. destruct (zlen pkt >? 65535); [exact I|].
  eapply wp_bind; [eapply wp_triv, (get_u8_adv pkt B); unfold OKAY; lia|]. intros [[first p0] e0] (U & (A1 & A2 & A3) & _).
  destruct (negb _); [exact I|].
  apply (wp_bind _ (fun '(seq, p, e) => e <= 0 /\ p0 <= p <= zlen pkt)).
  { destruct (flag _ 8); [|cbn; lia]. eapply wp_bind; [eapply wp_triv, (get_u16_adv pkt B); auto; lia|].
    intros [[s p1] e1] (_ & C1 & C2 & C3). cbn. lia. }
  intros [[seq p1] e1] (D1 & D2). destruct (negb (e1 =? OKAY)); [exact I|].
  apply (wp_bind _ (fun '(err, p, l, m') => (err = OKAY -> 0 <= p <= zlen pkt) /\ Forall (tlv_in 0 (zlen pkt)) l)).
  { destruct (flag _ 4).
    - eapply wp_mono; [eapply wp_triv, (parse_tlvblock_wp alloc pkt B 0); unfold is_u8; lia|].
      intros [[[e p] l] m'] (_ & _ & _ & F & S & _). split; [intros E; specialize (S E); lia|].
      eapply Forall_impl; [|exact F]. intros t [X _]. exact X.
    - cbn. split; auto. intros; lia. }
  intros [[[e2 p2] l] m2] (E1 & E2). destruct (Z.eqb_spec e2 OKAY) as [->|]; cbn [negb]; [|exact I]. specialize (E1 eq_refl).
  eapply wp_bind; [apply (wp_and _ _ _ _ (pkt_loop_wp cb alloc pkt pcons seq (flag (Z.land first 15) 4) l O ds0 E2 ltac:(constructor)) (pkt_loop_none pcons seq _ l O ds0))|].
  intros [[[res tl'] n] st1] [PW (new & T & F)]. 
  assert (hidden cb (d_trace st1)) as H1 by (eapply adds_none; [exists new; eauto|exact I]).
  assert (before_pos p2 (d_trace st1)) as BP.
  { rewrite T. cbn. rewrite app_nil_r. eapply Forall_impl; [|exact F]. cbn. intros e X o i X2. congruence. }
  apply (wp_bind _ (fun '(res, st', m') => hidden cb (d_trace st'))).
  { destruct (res =? OKAY); [|cbn; auto]. apply message_loop_hidden; auto; try lia. apply PW. }
  intros [[res2 st2] m3] H2. cbn. eapply adds_none; [apply pkt_end_none|auto].
Qed.
End P.
