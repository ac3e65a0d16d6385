(** Callback protocol of a message: pairing of start and end callbacks, drops
    and forwarding. *)
From Verif Require Import Base BitsModel BitsProofs BufLemmas NetaddrModel ReaderModel ReadDispModel ReaderSpec ReaderProofs.

Section M.
Context (cb : list event -> answer) (pkt : bytes) (old : list event).
Notation MX := (max_answer cb old).
Notation DR := (dropped cb old).
Notation PR := (protocol cb old).
Notation FB := (forbidden cb old).

Definition POL : Prop := forall e tr, polite e (a_res (cb (e :: tr))).
(** the history is [old] and then [new] *)
Definition not_fwd (e : event) : Prop := match e with EvForward _ _ _ => False | _ => True end.
Definition at_ (st : ds) (new : list event) : Prop := d_trace st = new ++ old /\ d_dnf st = FB new /\ Forall not_fwd new.

Lemma max_nonneg new : 0 <= MX new.
Proof. induction new; cbn; unfold OKAY; lia. Qed.
Lemma dropped_max new : DR new = (3 <=? MX new).
Proof.
  induction new as [|e new IH]; cbn [dropped max_answer]; [reflexivity|]. rewrite IH.
  generalize (a_res (cb ((e :: new) ++ old))). intros a.
  destruct (Z.leb_spec 3 (MX new)), (Z.leb_spec 3 a), (Z.leb_spec 3 (Z.max (MX new) a)); cbn; auto; lia.
Qed.

Lemma call_at st new ev st' a : at_ st new -> call cb st ev = (st', a) -> not_fwd ev ->
  at_ st' (ev :: new) /\ a = cb ((ev :: new) ++ old) /\ d_kind st' = d_kind st.
Proof.
  intros (H1 & H2 & H3). unfold call. intros [= <- <-] NF. cbn [d_trace d_dnf d_kind]. rewrite H1.
  split; [|split; auto]. split; auto. cbn [d_trace d_dnf forbidden]. rewrite H2. auto.
Qed.

(** what a result code says about the answers: in a TLV block, and in a message *)
Definition RelT (k : kind) (new : list event) (r : Z) : Prop :=
  (r = OKAY /\ MX new < 3) \/ (r = DROP_ADDRESS /\ k = KAddress /\ MX new < 3) \/ (3 <= r /\ r = MX new).
Definition Rel (new : list event) (r : Z) : Prop := (r = OKAY /\ MX new < 3) \/ (3 <= r /\ r = MX new).
Definition clean (new : list event) : Prop := PR new /\ MX new < 3.
Lemma Rel_OKAY new : Rel new OKAY -> MX new < 3.
Proof. unfold Rel, OKAY. lia. Qed.
Lemma RelT_OKAY k new : RelT k new OKAY -> MX new < 3.
Proof. unfold RelT, OKAY, DROP_ADDRESS. lia. Qed.

Definition tb (x : ctx) (e : event) : Prop :=
  match e with EvTlv _ y _ => y = x | EvBlock _ y _ _ => y = x | _ => False end.

Lemma clean_dropped new : clean new -> DR new = false.
Proof. intros [_ H]. rewrite dropped_max. lia. Qed.

(** a callback that is not an end callback *)
Lemma call_clean new e : POL -> clean new -> match e with EvEnd _ _ _ => False | EvForward _ _ _ => False | _ => True end ->
  let a := a_res (cb ((e :: new) ++ old)) in
  PR (e :: new) /\ polite e a /\ MX (e :: new) = Z.max (MX new) a.
Proof.
  intros P C E. cbn zeta. split; [|split; [apply P|reflexivity]].
  cbn [protocol]. split; [apply C|]. rewrite (clean_dropped new C). destruct e; try contradiction; auto.
Qed.

Lemma sched_step_at c x idx s res s' new : at_ (sl_st s) new -> (POL -> clean new) ->
  sched_step cb pkt c x idx s = Ok (res, s') ->
  exists nn, at_ (sl_st s') (nn ++ new) /\ Forall (tb x) nn /\ (POL -> PR (nn ++ new) /\ RelT (x_kind x) (nn ++ new) res).
Proof.
  intros A C. unfold sched_step.
  cbv zeta.
  match goal with |- context [match ?X with pair q st => match q with pair r im => match r with pair res tl => @?B res tl im st end end end] =>
    destruct X as [[[r1 tl1] im1] st1] eqn:E1 end.
  assert (exists nn, at_ st1 (nn ++ new) /\ Forall (tb x) nn /\ (POL -> PR (nn ++ new) /\ RelT (x_kind x) (nn ++ new) r1)) as X.
  { assert (forall r, r = OKAY -> POL -> PR ([] ++ new) /\ RelT (x_kind x) ([] ++ new) r) as N.
    { intros r -> P. destruct (C P) as [C1 C2]. split; [exact C1|]. left. split; [reflexivity|exact C2]. }
    destruct (sl_tlvs s) as [|t0 r]; [injection E1 as <- <- <- <-; exists []; split; [exact A|split; [constructor|apply N; reflexivity]]|].
    match type of E1 with context [EvTlv _ _ ?u] => set (t := u) in * end. clearbody t.
    destruct (index_match idx t0 && c_tlv c); [|injection E1 as <- <- <- <-; exists []; split; [exact A|split; [constructor|apply N; reflexivity]]].
    destruct (call cb (sl_st s) (EvTlv (c_id c) x t)) as [st2 a] eqn:EC.
    destruct (call_at _ _ _ _ _ A EC I) as (A2 & -> & _).
    exists [EvTlv (c_id c) x t]. cbn [app].
    assert (st1 = st2) as -> by (destruct (_ =? DROP_TLV) in E1; injection E1; auto).
    split; [exact A2|]. split; [constructor; [reflexivity|constructor]|]. intros P.
    destruct (call_clean new (EvTlv (c_id c) x t) P (C P) I) as (Q1 & Q2 & Q3).
    split; [exact Q1|]. unfold RelT. rewrite Q3. destruct (C P) as [_ C2]. pose proof (max_nonneg new).
    unfold polite, OKAY, DROP_TLV, DROP_ADDRESS in *. cbn [e_kind] in Q2.
    destruct (Z.eqb_spec (a_res (cb ((EvTlv (c_id c) x t :: new) ++ old))) 1) in E1.
    - assert (r1 = 0) as -> by congruence. left. lia.
    - assert (r1 = a_res (cb ((EvTlv (c_id c) x t :: new) ++ old))) as -> by congruence. destruct Q2 as [Q2|[Q2|[[Q2 _]|[Q2 Q4]]]]; [left|right; right| |right; left]; try lia. split; auto. split; auto. lia. }
  destruct X as (nn & X1 & X2 & X3).
  destruct (negb (r1 =? OKAY)) eqn:ER; [intros [= <- <-]; cbn [sl_st]; eauto|].
  assert (r1 = OKAY) as -> by (destruct (Z.eqb_spec r1 OKAY); [auto|discriminate]).
  match goal with |- context [obind ?Y _] => destruct Y as [[f cu]|]; [|discriminate] end. cbn [obind].
  match goal with |- context [match ?X with pair q st => match q with pair r im => @?B r im st end end] => destruct X as [[ps td] tl2] end.
  destruct (_ >? 0); [destruct (sl_ents s); [discriminate|]|]; intros [= <- <-]; cbn [sl_st]; eauto.
Qed.

Lemma RelT_clean k new r : PR new /\ RelT k new r -> r = OKAY -> clean new.
Proof. intros [H1 H2] ->. split; auto. eapply RelT_OKAY; eauto. Qed.

Lemma sched_loop_at c x idx fuel : forall s res s' new, at_ (sl_st s) new -> (POL -> clean new) ->
  sched_loop cb pkt fuel c x idx s = Ok (res, s') ->
  exists nn, at_ (sl_st s') (nn ++ new) /\ Forall (tb x) nn /\ (POL -> PR (nn ++ new) /\ RelT (x_kind x) (nn ++ new) res).
Proof.
  induction fuel as [|fuel IH]; intros s res s' new A C H; cbn [sched_loop] in H.
  - destruct (sl_tlvs s), (sl_ents s); try discriminate. injection H as <- <-. exists []. split; [exact A|]. split; [constructor|].
    intros P. destruct (C P). split; auto. left; auto.
  - destruct (match sl_tlvs s, sl_ents s with [], [] => true | _, _ => false end) eqn:EE.
    + assert (Ok (OKAY, s) = Ok (res, s')) as H' by (destruct (sl_tlvs s), (sl_ents s); auto; discriminate).
      injection H' as <- <-. exists []. split; [exact A|]. split; [constructor|].
      intros P. destruct (C P). split; auto. left; auto.
    + assert ((do '(res, s) <- sched_step cb pkt c x idx s; if negb (res =? OKAY) then Ok (res, s) else sched_loop cb pkt fuel c x idx s) = Ok (res, s')) as H'.
      { destruct (sl_tlvs s), (sl_ents s); auto. discriminate. }
      clear H. destruct (sched_step cb pkt c x idx s) as [[r1 s1]|] eqn:E1; [|discriminate]. cbn [obind] in H'.
      destruct (sched_step_at c x idx s r1 s1 new A C E1) as (n1 & A1 & B1 & C1).
      destruct (Z.eqb_spec r1 OKAY) as [->|N]; cbn [negb] in H'.
      * destruct (IH s1 res s' (n1 ++ new) A1) as (n2 & A2 & B2 & C2); auto.
        { intros P. eapply RelT_clean; [apply C1; auto|reflexivity]. }
        exists (n2 ++ n1). rewrite <- app_assoc. split; auto. split; auto. apply Forall_app; auto.
      * injection H' as <- <-. eauto.
Qed.

Lemma schedule_tlvblock_at c x tlvs idx st res tlvs' st' new : at_ st new -> (POL -> clean new) ->
  schedule_tlvblock cb pkt c x tlvs idx st = Ok (res, tlvs', st') ->
  exists nn, at_ st' (nn ++ new) /\ Forall (tb x) nn /\ (POL -> PR (nn ++ new) /\ RelT (x_kind x) (nn ++ new) res).
Proof.
  intros A C. unfold schedule_tlvblock.
  destruct (sched_loop _ _ _ _ _ _ _) as [[r s]|] eqn:EL; [|discriminate]. cbn [obind].
  apply (sched_loop_at c x idx _ _ _ _ new) in EL as (nn & A1 & B1 & C1); auto.
  destruct (Z.eqb_spec r OKAY) as [->|N]; cbn [negb].
  2:{ intros [= <- <- <-]. eauto. }
  assert (POL -> clean (nn ++ new)) as C1' by (intros P; eapply RelT_clean; [apply C1; auto|reflexivity]).
  set (views := rev (sl_views s)). clearbody views.
  assert (forall f, let ev := EvBlock (c_id c) x f (views_of views) in
    forall st2 a, call cb (sl_st s) ev = (st2, a) ->
    (if a_res a =? DROP_TLV then Ok (OKAY, mark_drops idx views (a_drops a) (rev (sl_done s) ++ sl_tlvs s), st2)
     else Ok (a_res a, rev (sl_done s) ++ sl_tlvs s, st2)) = Ok (res, tlvs', st') ->
    exists nn, at_ st' (nn ++ new) /\ Forall (tb x) nn /\ (POL -> PR (nn ++ new) /\ RelT (x_kind x) (nn ++ new) res)) as G.
  { intros f ev st2 a EC H. destruct (call_at _ _ _ _ _ A1 EC I) as (A2 & -> & _).
    exists (ev :: nn). cbn [app].
    assert (st' = st2) as -> by (destruct (_ =? DROP_TLV) in H; injection H; auto).
    split; [exact A2|]. split; [constructor; [reflexivity|exact B1]|]. intros P.
    destruct (call_clean (nn ++ new) ev P (C1' P) I) as (Q1 & Q2 & Q3).
    split; [exact Q1|]. unfold RelT. rewrite Q3. destruct (C1' P) as [_ C2]. pose proof (max_nonneg (nn ++ new)).
    unfold polite, OKAY, DROP_TLV, DROP_ADDRESS in *. subst ev. cbn [e_kind] in Q2.
    destruct (Z.eqb_spec (a_res (cb ((EvBlock (c_id c) x f (views_of views) :: nn ++ new) ++ old))) 1) in H.
    - assert (res = 0) as -> by congruence. left. lia.
    - assert (res = a_res (cb ((EvBlock (c_id c) x f (views_of views) :: nn ++ new) ++ old))) as -> by congruence. destruct Q2 as [Q2|[Q2|[[Q2 _]|[Q2 Q4]]]]; [left|right; right| |right; left]; try lia. split; auto. split; auto. lia. }
  destruct (c_block c && negb (sl_failed s)).
  { destruct (call cb (sl_st s) _) as [st2 a] eqn:EC. apply (G false _ _ EC). }
  destruct (c_failed c && sl_failed s).
  { destruct (call cb (sl_st s) _) as [st2 a] eqn:EC. apply (G true _ _ EC). }
  cbn [Z.eqb OKAY DROP_TLV]. intros [= <- <- <-]. eauto.
Qed.

(** *** Addresses *)
Definition addr_ev (e : event) : Prop := e_kind e = KAddress /\ match e with EvForward _ _ _ => False | _ => True end.

Lemma tb_addr x e : x_kind x = KAddress -> tb x e -> addr_ev e.
Proof. intros K H. destruct e; cbn in *; try contradiction; subst; split; auto. Qed.
Lemma Rel_clean new r : PR new /\ Rel new r -> r = OKAY -> clean new.
Proof. intros [H1 H2] ->. split; auto. eapply Rel_OKAY; eauto. Qed.

Lemma RelTA new r : RelT KAddress new r <-> ((r = 0 \/ r = 2) /\ MX new < 3) \/ (3 <= r /\ r = MX new).
Proof. unfold RelT, OKAY, DROP_ADDRESS. intuition. Qed.

Lemma addr_loop_at c seq h is_ : forall ab st res ab' st' new, at_ st new -> (POL -> clean new) ->
  addr_loop cb pkt c seq h is_ ab st = Ok (res, ab', st') ->
  exists nn, at_ st' (nn ++ new) /\ Forall addr_ev nn /\ (POL -> PR (nn ++ new) /\ Rel (nn ++ new) res).
Proof.
  induction is_ as [|i is_ IH]; intros ab st res ab' st' new A C H; cbn [addr_loop] in H.
  { injection H as <- <- <-. exists []. split; [exact A|]. split; [constructor|]. intros P. destruct (C P). split; auto. left; auto. }
  destruct (zmem i (ab_drop ab)); [eapply IH; eauto|].
  destruct (assemble_addr _ _ _ _) as [[addr na]|]; [|discriminate]. cbn [obind] in H.
  set (x := mkactx seq h ab na i) in *.
  match type of H with context [match ?X with pair q st => @?B q st end] => destruct X as [st1 r1] eqn:E1 end.
  assert (exists n1, at_ st1 (n1 ++ new) /\ Forall addr_ev n1 /\ (POL -> PR (n1 ++ new) /\ RelT KAddress (n1 ++ new) r1)) as (n1 & A1 & B1 & C1).
  { destruct (c_start c).
    - destruct (call cb st _) as [st2 a] eqn:EC. injection E1 as <- <-. destruct (call_at _ _ _ _ _ A EC I) as (A2 & -> & _).
      exists [EvStart (c_id c) x]. split; [exact A2|]. split; [constructor; [split; reflexivity|constructor]|]. intros P. cbn [app].
      destruct (call_clean new (EvStart (c_id c) x) P (C P) I) as (Q1 & Q2 & Q3).
      split; [exact Q1|]. unfold RelT. rewrite Q3. destruct (C P) as [_ C2]. pose proof (max_nonneg new).
      unfold polite, OKAY, DROP_TLV, DROP_ADDRESS in *.
      cbn [app] in *. destruct Q2 as [Q2|[Q2|[[Q2 []]|[Q2 Q4]]]]; [left|right; right|right; left]; try lia. split; auto. split; auto. lia.
    - injection E1 as <- <-. exists []. split; [exact A|]. split; [constructor|]. intros P. destruct (C P). split; auto. left; auto. }
  match type of H with context [obind ?X _] => destruct X as [[[r2 tl2] st2]|] eqn:E2; [|discriminate] end. cbn [obind] in H.
  assert (exists n2, at_ st2 (n2 ++ new) /\ Forall addr_ev n2 /\ (POL -> PR (n2 ++ new) /\ RelT KAddress (n2 ++ new) r2)) as (n2 & A2 & B2 & C2).
  { destruct (Z.eqb_spec r1 OKAY) as [->|N].
    - apply (schedule_tlvblock_at c x _ _ _ _ _ _ (n1 ++ new)) in E2 as (n2 & A2 & B2 & C2); auto.
      + exists (n2 ++ n1). rewrite <- app_assoc. split; auto. split; auto. apply Forall_app; split; auto.
        eapply Forall_impl; [|exact B2]. intros e. apply tb_addr. reflexivity.
      + intros P. eapply RelT_clean; [apply C1; auto|reflexivity].
    - injection E2 as <- <- <-. eauto. }
  match type of H with context [match ?X with pair q st => @?B q st end] => destruct X as [st3 r3] eqn:E3 end.
  assert (exists n3, at_ st3 (n3 ++ new) /\ Forall addr_ev n3 /\ (POL -> PR (n3 ++ new) /\ RelT KAddress (n3 ++ new) r3)) as (n3 & A3 & B3 & C3).
  { destruct (c_end c).
    - destruct (call cb st2 _) as [st4 a] eqn:EC. injection E3 as <- <-. destruct (call_at _ _ _ _ _ A2 EC I) as (A4 & -> & _).
      match type of A4 with at_ _ (?e :: _) => set (ev := e) in * end.
      exists (ev :: n2). split; [exact A4|]. split; [constructor; [split; reflexivity|exact B2]|]. intros P. cbn [app].
      destruct (C2 P) as [Q1 Q2]. cbn [protocol]. split.
      + split; [exact Q1|]. subst ev. cbn [is_message x_kind mkactx x]. rewrite dropped_max. intros D.
        destruct (Z.eqb_spec r2 OKAY) as [->|]; auto. apply RelT_OKAY in Q2. lia.
      + pose proof (P ev ((n2 ++ new) ++ old)) as Q3. rewrite RelTA in *. cbn [max_answer app] in *.
        pose proof (max_nonneg (n2 ++ new)).
        unfold polite, OKAY, DROP_TLV, DROP_ADDRESS in *. subst ev. cbn [e_kind] in Q3.
        rewrite (Z.gtb_ltb (a_res _)).
        match goal with |- context [Z.ltb ?u ?v] => destruct (Z.ltb_spec u v) end;
        destruct Q3 as [Q3|[Q3|[[Q3 []]|[Q3 Q4]]]]; lia.
    - injection E3 as <- <-. eauto. }
  destruct (Z.eqb_spec r3 DROP_ADDRESS) as [->|N1].
  { apply (IH _ _ _ _ _ (n3 ++ new)) in H as (n4 & A4 & B4 & C4); auto.
    - exists (n4 ++ n3). rewrite <- app_assoc. split; auto. split; auto. apply Forall_app; auto.
    - intros P. destruct (C3 P) as [Q1 Q2]. split; auto. unfold RelT, DROP_ADDRESS, OKAY in Q2. lia. }
  destruct (Z.eqb_spec r3 OKAY) as [->|N2]; cbn [negb] in H.
  { apply (IH _ _ _ _ _ (n3 ++ new)) in H as (n4 & A4 & B4 & C4); auto.
    - exists (n4 ++ n3). rewrite <- app_assoc. split; auto. split; auto. apply Forall_app; auto.
    - intros P. eapply RelT_clean; [apply C3; auto|reflexivity]. }
  injection H as <- <- <-. exists n3. split; auto. split; auto. intros P. destruct (C3 P) as [Q1 Q2]. split; auto.
  unfold RelT, Rel in *. destruct Q2 as [[Q2 _]|[[Q2 _]|Q2]]; try contradiction. auto.
Qed.

Lemma blocks_loop_at c seq h abs : forall st res abs' st' new, at_ st new -> (POL -> clean new) ->
  blocks_loop cb pkt c seq h abs st = Ok (res, abs', st') ->
  exists nn, at_ st' (nn ++ new) /\ Forall addr_ev nn /\ (POL -> PR (nn ++ new) /\ Rel (nn ++ new) res).
Proof.
  induction abs as [|ab abs IH]; intros st res abs' st' new A C H; cbn [blocks_loop] in H.
  { injection H as <- <- <-. exists []. split; [exact A|]. split; [constructor|]. intros P. destruct (C P). split; auto. left; auto. }
  destruct (addr_loop _ _ _ _ _ _ _ _) as [[[r1 ab1] st1]|] eqn:E1; [|discriminate]. cbn [obind] in H.
  apply (addr_loop_at _ _ _ _ _ _ _ _ _ new) in E1 as (n1 & A1 & B1 & C1); auto.
  destruct (Z.eqb_spec r1 OKAY) as [->|N]; cbn [negb] in H.
  - destruct (blocks_loop _ _ _ _ _ _ _) as [[[r2 ab2] st2]|] eqn:E2; [|discriminate]. cbn [obind] in H.
    injection H as <- <- <-. apply (IH _ _ _ _ (n1 ++ new)) in E2 as (n2 & A2 & B2 & C2); auto.
    + exists (n2 ++ n1). rewrite <- app_assoc. split; auto. split; auto. apply Forall_app; auto.
    + intros P. eapply Rel_clean; [apply C1; auto|reflexivity].
  - injection H as <- <- <-. eauto.
Qed.

(** *** Message consumers *)
Lemma brackets_none nn new : Forall (fun e => bracket e = []) nn -> brackets (nn ++ new) = brackets new.
Proof.
  intros F. unfold brackets. rewrite rev_app_distr, flat_map_app.
  assert (flat_map bracket (rev nn) = []) as ->; [|apply app_nil_r].
  apply Forall_rev in F. induction F as [|e l E _ IH]; cbn; auto. now rewrite E, IH.
Qed.
Lemma addr_bracket e : addr_ev e -> bracket e = [].
Proof. destruct e; cbn; intros [H _]; auto; unfold is_message; cbn in H; now rewrite H. Qed.
Lemma tb_bracket x e : tb x e -> bracket e = [].
Proof. destruct e; cbn; try contradiction; auto. Qed.
Lemma brackets_one e new : brackets (e :: new) = brackets new ++ bracket e.
Proof. unfold brackets. cbn. rewrite flat_map_app. cbn. now rewrite app_nil_r. Qed.

Lemma schedule_msgtlv_at c x tlvs st res tlvs' st' new : x_kind x = KMessage -> at_ st new -> (POL -> clean new) ->
  schedule_msgtlv cb pkt c x tlvs st = Ok (res, tlvs', st') ->
  exists nn, at_ st' (nn ++ new) /\ brackets (nn ++ new) = brackets new ++ (if c_start c then [(true, c_id c)] else []) /\
    (POL -> PR (nn ++ new) /\ Rel (nn ++ new) res).
Proof.
  intros K A C. unfold schedule_msgtlv.
  assert (at_ (set_kind st KMessage) new) as A' by exact A. set (st0 := set_kind st KMessage) in *. clearbody st0.
  assert (is_message x = true) as IM by (unfold is_message; now rewrite K).
  destruct (c_start c).
  - destruct (call cb st0 _) as [st1 a] eqn:EC. destruct (call_at _ _ _ _ _ A' EC I) as (A1 & -> & _).
    set (ev := EvStart (c_id c) x) in *.
    assert (POL -> PR (ev :: new) /\ Rel (ev :: new) (a_res (cb ((ev :: new) ++ old)))) as C1.
    { intros P. destruct (call_clean new ev P (C P) I) as (Q1 & Q2 & Q3). split; auto.
      unfold Rel. rewrite Q3. destruct (C P) as [_ C2]. pose proof (max_nonneg new).
      unfold polite, OKAY, DROP_TLV, DROP_ADDRESS in *.
      destruct Q2 as [Q2|[Q2|[[Q2 []]|[Q2 Q4]]]]; [left|right|]; try lia. cbn in Q4. congruence. }
    destruct (Z.eqb_spec (a_res (cb ((ev :: new) ++ old))) OKAY) as [E|E]; intros H.
    + apply (schedule_tlvblock_at c x _ _ _ _ _ _ (ev :: new)) in H as (n2 & A2 & B2 & C2); auto.
      * exists (n2 ++ [ev]). rewrite <- app_assoc. cbn [app]. split; auto. split.
        -- rewrite brackets_none by (eapply Forall_impl; [|exact B2]; intros; eapply tb_bracket; eauto).
           rewrite brackets_one. cbn [bracket ev]. now rewrite IM.
        -- intros P. destruct (C2 P) as [Q1 Q2]. split; auto. destruct Q2 as [Q2|[(_ & Q2 & _)|Q2]]; [left|congruence|right]; auto.
      * intros P. eapply Rel_clean; [apply C1; auto|exact E].
    + injection H as <- <- <-. exists [ev]. cbn [app]. split; auto. split; [|auto]. rewrite brackets_one. cbn [bracket ev]. now rewrite IM.
  - cbn [Z.eqb OKAY]. intros H. apply (schedule_tlvblock_at c x _ _ _ _ _ _ new) in H as (n2 & A2 & B2 & C2); auto.
    exists n2. split; auto. split.
    + rewrite app_nil_r. apply brackets_none. eapply Forall_impl; [|exact B2]; intros; eapply tb_bracket; eauto.
    + intros P. destruct (C2 P) as [Q1 Q2]. split; auto. destruct Q2 as [Q2|[(_ & Q2 & _)|Q2]]; [left|congruence|right]; auto.
Qed.

Definition cP (ty : Z) (c : consumer) : bool := c_handles ty c && negb (c_addrblock c).

Lemma end_cbs_at x ty l : x_kind x = KMessage -> forall res st res' st' new, at_ st new -> (POL -> PR new /\ Rel new res) ->
  end_cbs cb x ty l res st = (res', st') ->
  exists nn, at_ st' (nn ++ new) /\
    brackets (nn ++ new) = brackets new ++ map (fun c => (false, c_id c)) (filter c_end (filter (cP ty) l)) /\
    (POL -> PR (nn ++ new) /\ Rel (nn ++ new) res').
Proof.
  intros K. assert (is_message x = true) as IM by (unfold is_message; now rewrite K).
  induction l as [|c l IH]; intros res st res' st' new A C H; cbn [end_cbs] in H.
  { injection H as <- <-. exists []. cbn. rewrite app_nil_r. auto. }
  replace (c_end c && negb (c_addrblock c) && c_handles ty c) with (cP ty c && c_end c) in H
    by (unfold cP; destruct (c_end c), (c_addrblock c), (c_handles ty c); auto).
  cbn [filter]. destruct (cP ty c) eqn:EP; cbn [andb] in H; [|eapply IH; eauto].
  cbn [filter]. destruct (c_end c) eqn:EE; [|eapply IH; eauto].
  destruct (call cb st _) as [st1 a] eqn:EC. destruct (call_at _ _ _ _ _ A EC I) as (A1 & -> & _).
  match type of A1 with at_ _ (?e :: _) => set (ev := e) in * end.
  assert (POL -> PR (ev :: new) /\ Rel (ev :: new) (if a_res (cb ((ev :: new) ++ old)) >? res then a_res (cb ((ev :: new) ++ old)) else res)) as C1.
  { intros P. destruct (C P) as [Q1 Q2]. cbn [protocol]. split.
    - split; [exact Q1|]. subst ev. cbn. rewrite IM, dropped_max. unfold Rel, OKAY in Q2.
      change OKAY with 0. destruct (Z.eqb_spec res 0), (Z.leb_spec 3 (MX new)); cbn; auto; lia.
    - pose proof (P ev (new ++ old)) as Q3. unfold Rel in *. cbn [max_answer app] in *.
      pose proof (max_nonneg new).
      unfold polite, OKAY, DROP_TLV, DROP_ADDRESS in *. subst ev. cbn [e_kind] in Q3. rewrite K in Q3.
      rewrite (Z.gtb_ltb (a_res _)).
      match goal with |- context [Z.ltb ?u ?v] => destruct (Z.ltb_spec u v) end;
      destruct Q3 as [Q3|[Q3|[[Q3 []]|[Q3 Q4]]]]; try discriminate; lia. }
  apply (IH _ _ _ _ (ev :: new)) in H as (n2 & A2 & B2 & C2); auto.
  exists (n2 ++ [ev]). rewrite <- app_assoc. cbn [app]. split; auto. split; auto.
  rewrite B2, brackets_one, <- app_assoc. cbn [bracket ev]. rewrite IM. reflexivity.
Qed.


Definition starts (g : list consumer) : list (bool * Z) := map (fun c => (true, c_id c)) (filter c_start g).

Record Inv (ty : Z) (all pre rest : list consumer) (grp : option (nat * nat)) (o1 : Z) (new : list event)
           (gs : list (list consumer)) (g : list consumer) : Prop := {
  i_all : all = pre ++ rest;
  i_cat : concat gs ++ g = filter (cP ty) pre;
  i_ord : groups_ordered gs;
  i_same : Forall same_order gs;
  i_lt : Forall (fun c => Forall (fun c' => c_order c < c_order c') (g ++ rest)) (concat gs);
  i_grp : match grp with
          | None => g = [] /\ brackets new = flat_map group_brackets gs
          | Some (f, l) => Forall (fun c => c_order c = o1) g /\ (f <= length pre)%nat /\ filter (cP ty) (skipn f pre) = g /\
                           filter (cP ty) (range all f l) = g /\ brackets new = flat_map group_brackets gs ++ starts g
          end
}.

Definition Post (ty : Z) (all : list consumer) (grp : option (nat * nat)) (new : list event) (k : nat)
           (gs : list (list consumer)) (g : list consumer) : Prop :=
  concat gs ++ g = filter (cP ty) (firstn k all) /\ groups_ordered (gs ++ [g]) /\ Forall same_order (gs ++ [g]) /\
  match grp with
  | None => g = [] /\ brackets new = flat_map group_brackets gs
  | Some (f, l) => filter (cP ty) (range all f l) = g /\ brackets new = flat_map group_brackets gs ++ starts g
  end.

Lemma groups_snoc gs g : groups_ordered gs -> Forall (fun c => Forall (fun c' => c_order c < c_order c') g) (concat gs) ->
  groups_ordered (gs ++ [g]).
Proof.
  induction gs as [|h gs IH]; cbn [app groups_ordered concat]; intros H1 H2.
  - split; auto. rewrite Forall_forall. intros; constructor.
  - destruct H1 as [H0 H1]. apply Forall_app in H2 as [H2 H3]. split; [|apply IH; auto].
    rewrite Forall_forall in *. intros c Hc. apply Forall_app. split; [apply (H0 c Hc)|].
    constructor; auto.
Qed.
Lemma Forall_weaken {A} (P : A -> A -> Prop) (l a b : list A) : (forall c : A, incl b a) ->
  Forall (fun c => Forall (P c) a) l -> Forall (fun c => Forall (P c) b) l.
Proof.
  intros I F. eapply Forall_impl; [|exact F]. cbn. intros c H. rewrite Forall_forall in *. intros y Hy. apply H, (I c), Hy.
Qed.
Lemma range_skipn (all : list consumer) f l : (f <= l + 1)%nat -> range all f l = skipn f (firstn (l + 1) all).
Proof. intros H. unfold range. rewrite firstn_skipn_comm. do 2 f_equal. lia. Qed.
Lemma filter_app_one ty pre c : filter (cP ty) (pre ++ [c]) = filter (cP ty) pre ++ (if cP ty c then [c] else []).
Proof. rewrite filter_app. cbn. destruct (cP ty c); auto. Qed.
Lemma filter_rev' {A} (f : A -> bool) l : filter f (rev l) = rev (filter f l).
Proof. induction l as [|a l IH]; cbn; auto. rewrite filter_app, IH. cbn. destruct (f a); cbn; auto. now rewrite app_nil_r. Qed.
Lemma skipn_snoc {A} f (l : list A) c : (f <= length l)%nat -> skipn f (l ++ [c]) = skipn f l ++ [c].
Proof. intros H. rewrite skipn_app. replace (f - length l)%nat with O by lia. reflexivity. Qed.

Lemma firstn_len {A} (a b : list A) : firstn (length a) (a ++ b) = a.
Proof. rewrite firstn_app, Nat.sub_diag, firstn_O, app_nil_r. apply firstn_all. Qed.

Lemma Inv_Post ty all pre rest grp o1 new gs g : Inv ty all pre rest grp o1 new gs g ->
  Post ty all grp new (length pre) gs g.
Proof.
  intros [H1 H2 H3 H4 H5 H6]. subst all. unfold Post. rewrite firstn_len. split; [exact H2|].
  split; [apply groups_snoc; auto; eapply Forall_weaken; [|exact H5]; intros _ y Hy; apply in_or_app; auto|].
  split.
  - apply Forall_app. split; auto. constructor; auto. intros c c' Hc Hc'. destruct grp as [[f l]|].
    + destruct H6 as (H6 & _). rewrite Forall_forall in H6. now rewrite (H6 c Hc), (H6 c' Hc').
    + destruct H6 as [-> _]. contradiction.
  - destruct grp as [[f l]|]; tauto.
Qed.

(** a consumer that takes no part in start and end callbacks *)
Lemma Inv_skip ty all pre c rest grp o1 new new' gs g : cP ty c = false -> brackets new' = brackets new ->
  Inv ty all pre (c :: rest) grp o1 new gs g -> Inv ty all (pre ++ [c]) rest grp o1 new' gs g.
Proof.
  intros HP HB [H1 H2 H3 H4 H5 H6]. constructor; auto.
  - rewrite <- app_assoc. exact H1.
  - rewrite filter_app_one, HP, app_nil_r. exact H2.
  - eapply Forall_weaken; [|exact H5]. intros _ y Hy. apply in_app_or in Hy as [Hy|Hy]; apply in_or_app; auto. right; right; auto.
  - rewrite HB. destruct grp as [[f l]|]; auto. destruct H6 as (Q1 & Q2 & Q3 & Q4 & Q5).
    split; auto. split; [rewrite app_length; lia|]. split; [|auto]. rewrite skipn_snoc by auto.
    rewrite filter_app_one, HP, app_nil_r. auto.
Qed.

(** the open group is closed *)
Lemma Inv_close ty all pre c rest f l o1 new new' gs g : orders_sorted all -> c_order c > o1 ->
  Inv ty all pre (c :: rest) (Some (f, l)) o1 new gs g ->
  brackets new' = brackets new ++ map (fun c => (false, c_id c)) (filter c_end (filter (cP ty) (rev (range all f l)))) ->
  Inv ty all pre (c :: rest) None o1 new' (gs ++ [g]) [].
Proof.
  intros S O [H1 H2 H3 H4 H5 (Q1 & Q2 & Q3 & Q4 & Q5)] HB. constructor; auto.
  - rewrite concat_app. cbn. now rewrite !app_nil_r.
  - apply groups_snoc; auto. eapply Forall_weaken; [|exact H5]. intros _ y Hy. apply in_or_app; auto.
  - apply Forall_app. split; auto. constructor; auto. intros a b Ha Hb. rewrite Forall_forall in Q1. now rewrite (Q1 a Ha), (Q1 b Hb).
  - rewrite concat_app. cbn [concat app]. rewrite app_nil_r. apply Forall_app. split.
    + eapply Forall_weaken; [|exact H5]. intros _ y Hy. apply in_or_app; auto.
    + assert (Forall (fun c' => c_order c <= c_order c') (c :: rest)) as F.
      { subst all. clear - S. induction pre as [|p pre IH]; cbn in S; [|apply IH; apply S]. destruct S as [S _]. constructor; [lia|auto]. }
      eapply Forall_impl; [|exact Q1]. cbn. intros a Ha. eapply Forall_impl; [|exact F]. cbn. intros b Hb. lia.
  - split; auto. rewrite HB, Q5, filter_rev', Q4, filter_rev', flat_map_app. cbn [flat_map]. rewrite app_nil_r.
    unfold group_brackets, starts. now rewrite app_assoc.
Qed.

(** a message consumer is started *)
Lemma Inv_start ty all pre c rest grp o1 new new' gs g : orders_sorted all -> cP ty c = true ->
  match grp with Some _ => c_order c <= o1 | None => True end ->
  Inv ty all pre (c :: rest) grp o1 new gs g ->
  brackets new' = brackets new ++ (if c_start c then [(true, c_id c)] else []) ->
  Inv ty all (pre ++ [c]) rest (match grp with None => Some (length pre, length pre) | Some (f, _) => Some (f, length pre) end)
      (c_order c) new' gs (g ++ [c]).
Proof.
  intros S HP O [H1 H2 H3 H4 H5 H6] HB.
  assert (firstn (length pre + 1) all = pre ++ [c]) as HF.
  { subst all. replace (length pre + 1)%nat with (length (pre ++ [c])) by (rewrite app_length; cbn; lia).
    change (pre ++ c :: rest) with (pre ++ [c] ++ rest). rewrite app_assoc. apply firstn_len. }
  assert (starts (g ++ [c]) = starts g ++ (if c_start c then [(true, c_id c)] else [])) as HS.
  { unfold starts. rewrite filter_app, map_app. cbn. destruct (c_start c); auto. }
  constructor; auto.
  - rewrite <- app_assoc. exact H1.
  - rewrite app_assoc, H2, filter_app_one, HP. auto.
  - rewrite <- app_assoc. exact H5.
  - destruct grp as [[f l]|].
    + destruct H6 as (Q1 & Q2 & Q3 & Q4 & Q5). split.
      { apply Forall_app. split; [|constructor; auto].
        assert (g = [] \/ c_order c = o1) as [->|E]; [|constructor|now rewrite E].
        destruct g as [|a g]; auto. right. inversion Q1 as [|? ? Q6 Q7]; subst.
        assert (In a pre) as Ha.
        { assert (In a (filter (cP ty) pre)) as X by (rewrite <- H2; apply in_or_app; right; left; auto). now apply filter_In in X. }
        assert (c_order a <= c_order c) as L.
        { subst. clear - S Ha. induction pre as [|p pre IH]; [contradiction|]. destruct S as [S1 S2]. destruct Ha as [<-|Ha]; [|auto].
          rewrite Forall_forall in S1. apply S1. apply in_or_app. right; left; auto. }
        lia. }
      split; [rewrite app_length; lia|].
      rewrite skipn_snoc by auto. rewrite filter_app_one, HP, Q3. split; auto.
      rewrite range_skipn by lia. rewrite HF, skipn_snoc by auto. rewrite filter_app_one, HP, Q3. split; auto.
      rewrite HB, Q5, HS, app_assoc. auto.
    + destruct H6 as [-> Q]. split; [constructor; auto|]. split; [rewrite app_length; lia|].
      rewrite skipn_snoc, skipn_all by lia. cbn [app]. split; [cbn; now rewrite HP|].
      rewrite range_skipn by lia. rewrite HF, skipn_snoc, skipn_all by lia. split; [cbn; now rewrite HP|].
      rewrite HB, Q. cbn. unfold starts. cbn. destruct (c_start c); auto.
Qed.

Lemma cons_loop_at all seq h : orders_sorted all -> forall rest pre grp o1 tlvs abs st res grp' tlvs' abs' st' new gs g,
  at_ st new -> (POL -> clean new) -> Inv (mh_type h) all pre rest grp o1 new gs g ->
  cons_loop cb pkt all seq h (length pre) rest grp o1 tlvs abs st = Ok (res, grp', tlvs', abs', st') ->
  exists nn k gs' g', at_ st' (nn ++ new) /\ Post (mh_type h) all grp' (nn ++ new) k gs' g' /\ (res = OKAY -> k = length all) /\
    (POL -> PR (nn ++ new) /\ Rel (nn ++ new) res).
Proof.
  intros SO. induction rest as [|c rest IH]; intros pre grp o1 tlvs abs st res grp' tlvs' abs' st' new gs g A C J H; cbn [cons_loop] in H.
  { injection H as <- <- <- <- <-. exists [], (length pre), gs, g. split; [exact A|]. split; [eapply Inv_Post; exact J|].
    split; [intros _; rewrite (i_all _ _ _ _ _ _ _ _ _ J), app_nil_r; auto|].
    intros P. destruct (C P). split; auto. left; auto. }
  replace (S (length pre)) with (length (pre ++ [c])) in H by (rewrite app_length; cbn; lia).
  destruct (c_handles (mh_type h) c) eqn:EH; cbn [negb] in H.
  2:{ eapply IH in H; eauto. eapply Inv_skip; [|reflexivity|exact J]. unfold cP. now rewrite EH. }
  match type of H with context [match ?X with pair q st => match q with pair r im => @?B r im st end end] => destruct X as [[r1 grp1] st1] eqn:E1 end.
  assert (exists n1 gs1 g1, at_ st1 (n1 ++ new) /\ Inv (mh_type h) all pre (c :: rest) grp1 o1 (n1 ++ new) gs1 g1 /\
     (POL -> PR (n1 ++ new) /\ Rel (n1 ++ new) r1) /\ match grp1 with Some _ => c_order c <= o1 | None => True end /\
     (r1 <> OKAY -> grp1 = None)) as (n1 & gs1 & g1 & A1 & J1 & C1 & O1 & G1).
  { assert (POL -> PR ([] ++ new) /\ Rel ([] ++ new) OKAY) as CO.
    { intros P. destruct (C P). split; auto. left; auto. }
    destruct grp as [[f l]|].
    2:{ injection E1 as <- <- <-. exists [], gs, g. split; [exact A|]. split; [exact J|]. split; auto. }
    destruct (Z.gtb_spec (c_order c) o1).
    - unfold schedule_end in E1. destruct (end_cbs _ _ _ _ _ _) as [r2 st2] eqn:E2. injection E1 as <- <- <-.
      apply (fun K => end_cbs_at (mkctx KMessage seq (Some h) na_unspec 0) _ _ K _ _ _ _ new) in E2 as (n1 & A1 & B1 & C1); [|reflexivity|exact A|exact CO].
      exists n1, (gs ++ [g]), []. split; [exact A1|]. split; [eapply Inv_close; [exact SO| |exact J|exact B1]; lia|].
      split; [exact C1|]. split; auto.
    - injection E1 as <- <- <-. exists [], gs, g. split; [exact A|]. split; [exact J|]. split; [exact CO|]. split; [lia|].
      intros N; now elim N. }
  destruct (Z.eqb_spec r1 OKAY) as [->|N1]; cbn [negb] in H.
  2:{ injection H as <- <- <- <- <-. specialize (G1 N1). subst grp1. exists n1, (length pre), gs1, g1.
      split; [exact A1|]. split; [eapply Inv_Post; exact J1|]. split; [intros; contradiction|]. exact C1. }
  assert (POL -> clean (n1 ++ new)) as C1' by (intros P; eapply Rel_clean; [apply C1; auto|reflexivity]).
  destruct (c_addrblock c) eqn:EB.
  - unfold schedule_msgaddr in H. destruct (blocks_loop _ _ _ _ _ _ _) as [[[r2 ab2] st2]|] eqn:E2; [|discriminate]. cbn [obind] in H.
    apply (blocks_loop_at _ _ _ _ _ _ _ _ (n1 ++ new)) in E2 as (n2 & A2 & B2 & C2); [|exact A1|exact C1'].
    assert (Inv (mh_type h) all (pre ++ [c]) rest grp1 o1 (n2 ++ n1 ++ new) gs1 g1) as J2.
    { eapply Inv_skip; [| |exact J1]; [unfold cP; rewrite EB; apply andb_false_r|].
      apply brackets_none. eapply Forall_impl; [|exact B2]. intros; now apply addr_bracket. }
    destruct (Z.eqb_spec r2 OKAY) as [->|N2]; cbn [negb] in H.
    + apply (IH _ _ _ _ _ _ _ _ _ _ _ (n2 ++ n1 ++ new) gs1 g1) in H as (n3 & k & gs3 & g3 & A3 & P3 & K3 & C3); auto.
      * exists (n3 ++ n2 ++ n1), k, gs3, g3. rewrite <- !app_assoc. auto.
      * intros P. eapply Rel_clean; [apply C2; auto|reflexivity].
    + injection H as <- <- <- <- <-. exists (n2 ++ n1), (length (pre ++ [c])), gs1, g1. rewrite <- app_assoc.
      split; [exact A2|]. split; [eapply Inv_Post; exact J2|]. split; [intros; contradiction|]. exact C2.
  - destruct (schedule_msgtlv _ _ _ _ _ _) as [[[r2 tl2] st2]|] eqn:E2; [|discriminate]. cbn [obind] in H.
    apply (schedule_msgtlv_at _ _ _ _ _ _ _ (n1 ++ new)) in E2 as (n2 & A2 & B2 & C2); [|reflexivity|exact A1|exact C1'].
    pose proof (Inv_start (mh_type h) all pre c rest grp1 o1 (n1 ++ new) (n2 ++ n1 ++ new) gs1 g1 SO
                  ltac:(unfold cP; now rewrite EH, EB) O1 J1 B2) as J2.
    set (grp2 := match grp1 with None => _ | Some _ => _ end) in *. clearbody grp2.
    destruct (Z.eqb_spec r2 OKAY) as [->|N2]; cbn [negb] in H.
    + apply (IH _ _ _ _ _ _ _ _ _ _ _ (n2 ++ n1 ++ new) gs1 (g1 ++ [c])) in H as (n3 & k & gs3 & g3 & A3 & P3 & K3 & C3); auto.
      * exists (n3 ++ n2 ++ n1), k, gs3, g3. rewrite <- !app_assoc. auto.
      * intros P. eapply Rel_clean; [apply C2; auto|reflexivity].
    + injection H as <- <- <- <- <-. exists (n2 ++ n1), (length (pre ++ [c])), gs1, (g1 ++ [c]). rewrite <- app_assoc.
      split; [exact A2|]. split; [eapply Inv_Post; exact J2|]. split; [intros; contradiction|]. exact C2.
Qed.

Lemma dispatch_message_at all seq msg st res st' : orders_sorted all -> at_ st [] ->
  dispatch_message cb pkt all seq msg st = Ok (res, st') ->
  exists new k gs, at_ st' new /\ brackets new = flat_map group_brackets gs /\
    concat gs = filter (cP (mh_type (ms_hdr msg))) (firstn k all) /\ groups_ordered gs /\ Forall same_order gs /\
    (POL -> PR new /\ Rel new res /\ (MX new < 3 -> concat gs = filter (cP (mh_type (ms_hdr msg))) all)).
Proof.
  intros SO A. unfold dispatch_message.
  destruct (cons_loop _ _ _ _ _ _ _ _ _ _ _ _) as [[[[[r1 grp] tl1] ab1] st1]|] eqn:E1; [|discriminate]. cbn [obind].
  apply (cons_loop_at all seq (ms_hdr msg) SO all [] None 0 _ _ _ _ _ _ _ _ [] [] []) in E1
    as (n1 & k & gs & g & A1 & (P1 & P2 & P3 & P4) & K & C1); auto.
  2:{ intros P. split; cbn; unfold OKAY; auto. lia. }
  2:{ constructor; cbn; auto. }
  rewrite app_nil_r in *.
  assert (POL -> Rel n1 r1 -> MX n1 < 3 -> k = length all) as KK.
  { intros P R L. apply K. unfold Rel, OKAY in *. lia. }
  assert (concat (gs ++ [g]) = filter (cP (mh_type (ms_hdr msg))) (firstn k all)) as P1'.
  { rewrite concat_app. cbn. now rewrite app_nil_r. }
  destruct grp as [[f l]|].
  - intros H. injection H as H. unfold schedule_end in H.
    destruct P4 as [P4 P5].
    apply (fun K => end_cbs_at (mkctx KMessage seq (Some (ms_hdr msg)) na_unspec 0) _ _ K _ _ _ _ n1) in H as (n2 & A2 & B2 & C2); [|reflexivity|exact A1|exact C1].
    exists (n2 ++ n1), k, (gs ++ [g]). split; [exact A2|]. split.
    { rewrite B2, P5, filter_rev', P4, filter_rev', flat_map_app. cbn [flat_map]. rewrite app_nil_r.
      unfold group_brackets, starts. now rewrite app_assoc. }
    split; [exact P1'|]. split; [exact P2|]. split; [exact P3|]. intros P. destruct (C2 P) as [Q1 Q2]. split; auto. split; auto.
    intros L. rewrite P1'. rewrite (KK P (proj2 (C1 P))); [now rewrite firstn_all|].
    assert (MX n1 <= MX (n2 ++ n1)); [|lia]. clear. induction n2; cbn; lia.
  - intros [= <- <-]. destruct P4 as [-> P5]. exists n1, k, gs. split; [exact A1|]. split; [exact P5|].
    rewrite app_nil_r in P1. split; [exact P1|].
    split. { clear - P2. induction gs as [|h gs IH]; cbn; auto. destruct P2 as [Q1 Q2]. split; auto.
             rewrite Forall_forall in *. intros c Hc. specialize (Q1 c Hc). now apply Forall_app in Q1. }
    split; [now apply Forall_app in P3|]. intros P. destruct (C1 P) as [Q1 Q2]. split; auto. split; auto.
    intros L. rewrite P1. rewrite (KK P Q2 L). now rewrite firstn_all.
Qed.

End M.

(** ** Message header *)
Lemma get_u8_ok pkt ptr eob err v p : get_u8 pkt ptr eob err = Ok (v, p, OKAY) ->
  err = OKAY /\ zget pkt ptr = Some v /\ p = ptr + 1.
Proof.
  unfold get_u8. destruct (Z.eqb_spec err OKAY) as [->|N]; cbn [negb].
  - destruct (_ <=? _); [discriminate|]. destruct (zget pkt ptr); [|discriminate]. intros [= -> <-]. auto.
  - intros [= _ _ E]. contradiction.
Qed.
Lemma get_u16_ok pkt ptr eob err v p : get_u16 pkt ptr eob err = Ok (v, p, OKAY) -> err = OKAY /\ p = ptr + 2.
Proof.
  unfold get_u16. destruct (get_u8 pkt ptr eob err) as [[[h p1] e1]|] eqn:E1; [|discriminate]. cbn [obind].
  destruct (get_u8 pkt p1 eob e1) as [[[l p2] e2]|] eqn:E2; [|discriminate]. cbn [obind].
  intros [= _ <- ->]. apply get_u8_ok in E2 as (-> & _ & ->). apply get_u8_ok in E1 as (-> & _ & ->). split; auto; lia.
Qed.
Lemma flag_bit fl n : 0 <= n -> flag fl (Z.shiftl 1 n) = Z.testbit fl n.
Proof. intros H. unfold flag. rewrite land_bit_zero by auto. apply negb_involutive. Qed.

Lemma header_fields pkt start eob p h : parse_msgheader pkt start eob = Ok (OKAY, p, h) ->
  zget pkt start = Some (mh_type h) /\ mh_hoplimit h = msg_hop_limit pkt start.
Proof.
  unfold parse_msgheader.
  destruct (get_u8 pkt start eob OKAY) as [[[ty p1] e1]|] eqn:E1; [|discriminate]. cbn [obind].
  destruct (get_u8 pkt p1 eob e1) as [[[fl p2] e2]|] eqn:E2; [|discriminate]. cbn [obind].
  destruct (get_u16 pkt p2 eob e2) as [[[sz p3] e3]|] eqn:E3; [|discriminate]. cbn [obind]. cbv zeta.
  destruct (flag fl 128 && _) eqn:EO; [discriminate|].
  match goal with |- context [obind ?X _] => destruct X as [[or p4]|] eqn:E4; [|discriminate] end. cbn [obind].
  match goal with |- context [obind ?X _] => destruct X as [[[hl p5] e5]|] eqn:E5; [|discriminate] end. cbn [obind].
  match goal with |- context [obind ?X _] => destruct X as [[[hc p6] e6]|] eqn:E6; [|discriminate] end. cbn [obind].
  match goal with |- context [obind ?X _] => destruct X as [[[sn p7] e7]|] eqn:E7; [|discriminate] end. cbn [obind].
  destruct (Z.gtb_spec (start + sz) eob); [discriminate|]. intros [= -> <- <-]. cbn [mh_type mh_hoplimit].
  assert (e6 = OKAY) as ->.
  { destruct (flag fl 16); [|congruence]. destruct (get_u16 pkt p6 eob e6) as [[[v p'] e']|] eqn:G; [|discriminate].
    injection E7 as <- <- ->. now apply get_u16_ok in G. }
  assert (e5 = OKAY) as ->.
  { destruct (flag fl 32); [|congruence]. destruct (get_u8 pkt p5 eob e5) as [[[v p'] e']|] eqn:G; [|discriminate].
    injection E6 as <- <- ->. now apply get_u8_ok in G. }
  assert (e3 = OKAY /\ hl = if flag fl 64 then zget pkt p4 else None) as [-> ->].
  { destruct (flag fl 64); [|split; congruence]. destruct (get_u8 pkt p4 eob e3) as [[[v p'] e']|] eqn:G; [|discriminate].
    injection E5 as <- <- ->. apply get_u8_ok in G as (-> & -> & _). auto. }
  apply get_u16_ok in E3 as [-> ->]. apply get_u8_ok in E2 as (-> & F2 & ->). apply get_u8_ok in E1 as (_ & F1 & ->).
  split; [exact F1|]. unfold msg_hop_limit, hop_limit_offset, bit_set. rewrite F2.
  change 64 with (Z.shiftl 1 6). rewrite flag_bit by lia. destruct (Z.testbit fl 6); auto.
  change 128 with (Z.shiftl 1 7) in E4. rewrite flag_bit in E4 by lia. destruct (Z.testbit fl 7).
  - destruct (copy_out _ _ _); [|discriminate]. destruct (from_binary_prefix _ _ _) as [[? ?]|]; [|discriminate].
    injection E4 as _ <-. f_equal. change 15 with (Z.ones 4). rewrite Z.land_ones by lia. change (2 ^ 4) with 16. lia.
  - injection E4 as _ <-. f_equal. lia.
Qed.

Lemma parse_message_fields alloc pkt start eob m msg m' : parse_message alloc pkt start eob m = Ok (OKAY, msg, m') ->
  zget pkt start = Some (mh_type (ms_hdr msg)) /\ mh_hoplimit (ms_hdr msg) = msg_hop_limit pkt start.
Proof.
  unfold parse_message. destruct (parse_msgheader pkt start eob) as [[[e p] h]|] eqn:E; [|discriminate]. cbn [obind].
  destruct (Z.eqb_spec e OKAY) as [->|N]; cbn [negb].
  2:{ intros [= H _ _]. contradiction. }
  destruct (parse_tlvblock _ _ _ _ _ _) as [[[[e1 p1] tl1] m1]|]; [|discriminate]. cbn [obind].
  destruct (Z.eqb_spec e1 OKAY) as [->|N]; cbn [negb].
  2:{ intros [= H _ _]. contradiction. }
  destruct (addrblocks_loop _ _ _ _ _ _ _ _) as [[[[e2 p2] tl2] m2]|]; [|discriminate]. cbn [obind].
  intros [= _ <- _]. cbn. eapply header_fields; eauto.
Qed.

(** ** One message *)
Lemma handle_message_at cb pkt alloc fwd all seq start eob st m res p st' m' :
  all_bytes pkt -> 0 <= start <= eob -> eob <= zlen pkt -> orders_sorted all ->
  handle_message cb pkt alloc fwd all seq start eob st m = Ok (res, p, st', m') ->
  let old := d_trace st in
  d_trace st' = old \/
  exists ty new k gs f, zget pkt start = Some ty /\ d_trace st' = f ++ new ++ old /\
    brackets new = flat_map group_brackets gs /\ concat gs = filter (cP ty) (firstn k all) /\ groups_ordered gs /\ Forall same_order gs /\
    (f = [] \/ exists x len, f = [EvForward x start len]) /\ Forall not_fwd new /\
    (f <> [] -> fwd = true /\ forbidden cb old new = false /\ exists h, msg_hop_limit pkt start = Some h /\ 1 < h) /\
    (POL cb -> protocol cb old new /\ (max_answer cb old new < 3 -> concat gs = filter (cP ty) all) /\
       (f <> [] <-> fwd = true /\ forbidden cb old new = false /\ max_answer cb old new <= 3 /\ exists h, msg_hop_limit pkt start = Some h /\ 1 < h)).
Proof.
  intros B H1 H2 SO. unfold handle_message. cbn zeta.
  pose proof (parse_message_wp alloc pkt B start eob m H1 H2) as W.
  destruct (parse_message alloc pkt start eob m) as [[[err msg] m1]|] eqn:EP; [|discriminate]. cbn [obind].
  cbn [wp] in W. destruct W as (W & _).
  destruct (Z.eqb_spec err OKAY) as [->|N].
  2:{ cbn [obind]. intros H. left.
      assert ((err =? DROP_MSG_BUT_FORWARD) = false) as E3 by (unfold DROP_MSG_BUT_FORWARD, OKAY in *; lia).
      assert ((err =? OKAY) = false) as E4 by lia. rewrite E3, E4 in H. cbn [orb andb] in H.
      injection H as <- <- <- <-. reflexivity. }
  destruct (parse_message_fields _ _ _ _ _ _ _ EP) as [F1 F2].
  destruct (dispatch_message _ _ _ _ _ _) as [[r st1]|] eqn:ED; [|discriminate]. cbn [obind]. intros H. right.
  apply (dispatch_message_at cb pkt (d_trace st)) in ED as (new & k & gs & A1 & A2 & A3 & A4 & A5 & A6); auto.
  2:{ split; [reflexivity|split; [reflexivity|constructor]]. }
  exists (mh_type (ms_hdr msg)), new, k, gs.
  rewrite F2 in H. destruct A1 as (A1 & A1' & A1n). rewrite A1' in H.
  set (hop := match msg_hop_limit pkt start with Some hl => hl >? 1 | None => false end) in *.
  assert (hop = true <-> exists h, msg_hop_limit pkt start = Some h /\ 1 < h) as HOP.
  { unfold hop. destruct (msg_hop_limit pkt start) as [hl|]; split; try discriminate.
    - intros. exists hl. split; auto. lia.
    - intros (? & [= <-] & ?). lia.
    - intros (? & ? & _). discriminate. }
  clearbody hop.
  assert (POL cb -> protocol cb (d_trace st) new /\ (max_answer cb (d_trace st) new < 3 -> concat gs = filter (cP (mh_type (ms_hdr msg))) all) /\
     ((r =? OKAY) || (r =? DROP_MSG_BUT_FORWARD) = true <-> max_answer cb (d_trace st) new <= 3)) as A7.
  { intros P. destruct (A6 P) as (Q1 & Q2 & Q3). split; auto. split; auto. unfold Rel, OKAY, DROP_MSG_BUT_FORWARD in *.
    destruct (Z.eqb_spec r 0), (Z.eqb_spec r 3); cbn; split; intros; try lia; auto; discriminate. }
  clear A6.
  destruct (((r =? OKAY) || (r =? DROP_MSG_BUT_FORWARD)) && negb (forbidden cb (d_trace st) new) && fwd && hop) eqn:EF.
  - apply andb_prop in EF as [EF E4]. apply andb_prop in EF as [EF E3]. apply andb_prop in EF as [E1 E2]. apply negb_true_iff in E2.
    injection H as <- <- <- <-.
    exists [EvForward (mkctx KMessage seq (Some (ms_hdr msg)) na_unspec 0) start (mh_size (ms_hdr msg))].
    split; [exact F1|]. split; [cbn; now rewrite A1|].
    split; [exact A2|]. split; [exact A3|]. split; [exact A4|]. split; [exact A5|]. split; [right; eauto|]. split; [exact A1n|]. split; [intros _; rewrite E2, E3, <- HOP; auto|].
    intros P. destruct (A7 P) as (Q1 & Q2 & Q3). split; auto. split; auto. split; [|intros; discriminate].
    intros _. rewrite E2, E3, <- HOP, <- Q3. auto.
  - injection H as <- <- <- <-. exists []. split; [exact F1|]. split; [exact A1|].
    split; [exact A2|]. split; [exact A3|]. split; [exact A4|]. split; [exact A5|]. split; [auto|]. split; [exact A1n|]. split; [intros X; now elim X|].
    intros P. destruct (A7 P) as (Q1 & Q2 & Q3). split; auto. split; auto. split; [intros X; now elim X|].
    intros (-> & X2 & X3 & X4). rewrite <- HOP in X4. subst hop. rewrite X2 in EF. rewrite <- Q3 in X3. rewrite X3 in EF. discriminate.
Qed.
