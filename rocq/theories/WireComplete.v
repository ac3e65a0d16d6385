(** Consumers miss nothing: if nobody drops anything, every address and every
    TLV is shown to every consumer which wants to see it. *)
From Verif Require Import Base BitsModel BitsProofs BufLemmas SplitLemmas NetaddrModel ReaderModel ReadDispModel ReaderSpec ReaderProofs ReadDispProofs
  ReadTlvProofs WireSpec WireParse WireDispatch WireReadProofs.

Section C.
Context (cb : list event -> answer) (pkt : bytes).
Hypothesis Q : forall l, a_res (cb l) = OKAY.
Notation TF := (fun _ : rfault => True).
Definition mono (st st' : ds) : Prop := incl (d_trace st) (d_trace st').
Lemma mono_refl st : mono st st. Proof. apply incl_refl. Qed.
Lemma mono_trans a b c : mono a b -> mono b c -> mono a c. Proof. apply incl_tran. Qed.
Lemma call_hears st ev st' a : call cb st ev = (st', a) -> mono st st' /\ In ev (d_trace st') /\ a_res a = OKAY.
Proof. unfold call. intros [= <- <-]. cbn. split; [apply incl_tl, incl_refl|]. split; auto. Qed.

Section T.
Context (c : consumer) (x : ctx) (idx : Z).
Definition moved (t t' : tlv) : Prop := t' = t \/ t' = shown idx t.
Definition heard (st : ds) (t : tlv) : Prop :=
  c_tlv c = true -> index_match idx t = true -> In (EvTlv (c_id c) x (shown idx t)) (d_trace st).
Definition sl_all (s : sl) : list tlv := rev (sl_done s) ++ sl_tlvs s.

Lemma moved_refl l : Forall2 moved l l. Proof. induction l; constructor; auto. left; auto. Qed.
Lemma shown_shown t : shown idx (shown idx t) = shown idx t.
Proof. unfold shown. destruct (t_multi t) eqn:M; cbn; rewrite M; reflexivity. Qed.
Lemma moved_trans a b d : moved a b -> moved b d -> moved a d.
Proof. unfold moved. intros [->| ->] [->| ->]; auto. right. apply shown_shown. Qed.
Lemma moved_all_trans a : forall b d, Forall2 moved a b -> Forall2 moved b d -> Forall2 moved a d.
Proof.
  induction a as [|t a IH]; intros b d H1 H2; inversion H1; subst; inversion H2; subst; constructor; eauto using moved_trans.
Qed.

Lemma sched_step_hears s : wp TF (fun '(res, s') => res = OKAY /\ mono (sl_st s) (sl_st s') /\ Forall2 moved (sl_all s) (sl_all s') /\
    match sl_tlvs s with [] => sl_tlvs s' = [] | t :: r => heard (sl_st s') t /\ (sl_tlvs s' = r \/ exists t', sl_tlvs s' = t' :: r) end)
  (sched_step cb pkt c x idx s).
Proof.
  unfold sched_step. destruct (sl_tlvs s) as [|t r] eqn:ET.
  - change (OKAY =? OKAY) with true. cbn [negb]. eapply wp_bind with (Q := fun _ => True).
    { destruct (_ >=? 0); [|exact I]. destruct (sl_ents s); [exact I|]. destruct (sched_match _ _ _ _ _ _ _) as [[? ?]|]; exact I. }
    intros [failed cur] _. assert (Forall2 moved (sl_all s) (rev (sl_done s) ++ [])) as F by (unfold sl_all; rewrite ET; apply moved_refl).
    destruct (_ >? 0); [destruct (sl_ents s); [exact I|]|]; cbn; (split; [reflexivity|]; split; [apply mono_refl|]; auto).
  - set (im := index_match idx t). 
    set (t' := if im && t_multi t then t_set_single t (option_map (fun v => v + (idx - t_idx1 t) * t_length t) (t_value t)) else t).
    assert (im = true -> t' = shown idx t) as ES by (intros E; unfold t'; rewrite E; cbn; unfold shown; destruct (t_multi t); auto).
    assert (moved t t') as MT by (unfold t'; destruct im eqn:E; cbn; [unfold moved, shown; destruct (t_multi t); auto|left; auto]).
    match goal with |- wp _ _ (let (_, _) := ?X in _) => assert (exists im' st', X = (OKAY, t' :: r, im', st') /\ mono (sl_st s) st' /\ heard st' t) as (im' & st' & -> & M1 & M2) end.
    { unfold heard. fold im. destruct (im && c_tlv c) eqn:E.
      - apply andb_prop in E as [E1 E2]. destruct (call cb (sl_st s) _) as [st1 a] eqn:EC. apply call_hears in EC as (C1 & C2 & C3).
        rewrite C3. change (OKAY =? DROP_TLV) with false. cbn iota. do 2 eexists. split; [reflexivity|]. split; auto. intros _ _.
        rewrite <- (ES E1). exact C2.
      - do 2 eexists. split; [reflexivity|]. split; [apply mono_refl|]. intros H1 H2. rewrite H1, H2 in E. discriminate. }
    change (OKAY =? OKAY) with true. cbn [negb]. eapply wp_bind with (Q := fun _ => True).
    { destruct (_ >=? 0); [|exact I]. destruct (sl_ents s); [exact I|]. destruct (sched_match _ _ _ _ _ _ _) as [[? ?]|]; exact I. }
    intros [failed cur] _.
    assert (Forall2 moved (sl_all s) (rev (t' :: sl_done s) ++ r)) as F1.
    { unfold sl_all. rewrite ET. cbn [rev]. rewrite <- app_assoc. apply Forall2_app; [apply moved_refl|]. constructor; auto. apply moved_refl. }
    assert (Forall2 moved (sl_all s) (rev (sl_done s) ++ t' :: r)) as F2.
    { unfold sl_all. rewrite ET. apply Forall2_app; [apply moved_refl|]. constructor; auto. apply moved_refl. }
    destruct (cmp_types (hd_error (t' :: r)) (hd_error (sl_ents s)) <=? 0);
      (destruct (_ >? 0); [destruct (sl_ents s); [exact I|]|]; cbn; unfold heard in *; cbn in *;
       (split; [reflexivity|]; split; [exact M1|]; split; [assumption|]; split; [assumption|]; eauto)).
Qed.

Lemma sched_loop_hears fuel : forall s, wp TF (fun '(res, s') => res = OKAY /\ mono (sl_st s) (sl_st s') /\ Forall2 moved (sl_all s) (sl_all s') /\
    Forall (heard (sl_st s')) (sl_tlvs s)) (sched_loop cb pkt fuel c x idx s).
Proof.
  assert (forall s, sl_tlvs s = [] -> wp TF (fun '(res, s') => res = OKAY /\ mono (sl_st s) (sl_st s') /\ Forall2 moved (sl_all s) (sl_all s') /\
    Forall (heard (sl_st s')) (sl_tlvs s)) (Ok (OKAY, s))) as X0.
  { intros s E. cbn. rewrite E. split; auto. split; [apply mono_refl|]. split; [apply moved_refl|constructor]. }
  induction fuel as [|fuel IH]; intros s; cbn [sched_loop].
  - destruct (sl_tlvs s) eqn:E1; [destruct (sl_ents s) eqn:E2|]; try exact I. rewrite <- E1. now apply X0.
  - assert (wp TF (fun '(res, s') => res = OKAY /\ mono (sl_st s) (sl_st s') /\ Forall2 moved (sl_all s) (sl_all s') /\
      Forall (heard (sl_st s')) (sl_tlvs s)) (do '(res, s) <- sched_step cb pkt c x idx s; if negb (res =? OKAY) then Ok (res, s) else sched_loop cb pkt fuel c x idx s)) as X.
    { eapply wp_bind; [apply sched_step_hears|]. intros [res s1] (-> & A1 & A2 & A3). change (OKAY =? OKAY) with true. cbn [negb].
      specialize (IH s1). destruct (sched_loop cb pkt fuel c x idx s1) as [[res s2]|]; [|exact I]. cbn [wp] in *.
      destruct IH as (-> & B1 & B2 & B3). split; auto. split; [eauto using mono_trans|]. split; [eauto using moved_all_trans|].
      destruct (sl_tlvs s) as [|t r]; [constructor|]. destruct A3 as [A3 A4]. constructor.
      - intros H1 H2. apply B1. now apply A3.
      - destruct A4 as [<-|(t' & E)]; auto. rewrite E in B3. now inversion B3. }
    destruct (sl_tlvs s) eqn:E1; [destruct (sl_ents s) eqn:E2|]; try exact X. rewrite <- E1. now apply X0.
Qed.

Lemma schedule_hears tlvs st : wp TF (fun '(res, tlvs', st') => res = OKAY /\ mono st st' /\ Forall2 moved tlvs tlvs' /\ Forall (heard st') tlvs)
  (schedule_tlvblock cb pkt c x tlvs idx st).
Proof.
  unfold schedule_tlvblock. eapply wp_bind; [apply sched_loop_hears|]. intros [res s] (-> & A1 & A2 & A3).
  cbn in A1, A2, A3. change (OKAY =? OKAY) with true. cbn [negb].
  assert (forall f v, exists st' d, (let '(st, a) := call cb (sl_st s) (EvBlock (c_id c) x f v) in (st, a_res a, a_drops a)) = (st', OKAY, d) /\
     mono (sl_st s) st') as X.
  { intros f v. destruct (call cb _ _) as [st' a] eqn:EC. apply call_hears in EC as (C1 & C2 & C3). rewrite C3. eauto. }
  assert (forall st' d, mono (sl_st s) st' -> wp TF (fun '(res, tlvs', st') => res = OKAY /\ mono st st' /\ Forall2 moved tlvs tlvs' /\ Forall (heard st') tlvs)
     (if OKAY =? DROP_TLV then Ok (OKAY, mark_drops idx (rev (sl_views s)) d (rev (sl_done s) ++ sl_tlvs s), st')
      else Ok (OKAY, rev (sl_done s) ++ sl_tlvs s, st'))) as Y.
  { intros st' d M. cbn. split; auto. split; [eapply mono_trans; eauto|]. split; [exact A2|].
    eapply Forall_impl; [|exact A3]. intros t Ht H1 H2. apply M. now apply Ht. }
  destruct (c_block c && negb (sl_failed s)).
  { destruct (X false (views_of (rev (sl_views s)))) as (st' & d & -> & M). now apply Y. }
  destruct (c_failed c && sl_failed s).
  { destruct (X true (views_of (rev (sl_views s)))) as (st' & d & -> & M). now apply Y. }
  apply Y. apply mono_refl.
Qed.
End T.

(** the TLVs of a block are all still there *)
Definition kept (n : Z) (ws : list wtlv) (tlvs : list tlv) : Prop :=
  forall w, In w ws -> wf_tlv n w /\ exists t, In t tlvs /\ stored pkt n w t /\ t_drop t = [].

Lemma stored_moved n w idx t t' : wf_tlv n w -> stored pkt n w t /\ t_drop t = [] -> moved idx t t' -> stored pkt n w t' /\ t_drop t' = [].
Proof.
  intros W [S D] [->| ->]; auto. split.
  - unfold shown. destruct (t_multi t) eqn:M; auto.
    destruct S as [D1 D2 D3 D4 D5 D6]. constructor; auto.
    intros N. destruct (D6 N) as (off & A1 & A2 & A3 & A4). exists off. cbn. rewrite M in *. repeat split; auto. discriminate.
  - unfold shown. destruct (t_multi t); auto.
Qed.
Lemma Forall2_In {A B} (R : A -> B -> Prop) l l' a : Forall2 R l l' -> In a l -> exists b, In b l' /\ R a b.
Proof. induction 1; cbn; [tauto|]. intros [->|I]; eauto. destruct (IHForall2 I) as (b & ? & ?). eauto. Qed.
Lemma kept_moved n ws idx tlvs tlvs' : kept n ws tlvs -> Forall2 (moved idx) tlvs tlvs' -> kept n ws tlvs'.
Proof.
  intros K F w Hw. destruct (K w Hw) as (W & t & I & S). split; auto.
  destruct (Forall2_In _ _ _ _ F I) as (t' & I' & M). exists t'. split; auto. eapply stored_moved; eauto.
Qed.

(** stored, undropped and concerned: it matches, and what is shown is right *)
Lemma kept_match n w i t : wf_tlv n w -> 0 <= i <= 255 -> stored pkt n w t /\ t_drop t = [] -> concerns n w i -> (n = 0 -> i = 0) ->
  index_match i t = true /\ shows pkt n i w (shown i t).
Proof.
  intros W Hi [S D] C Z0.
  assert (index_match i t = true) as IM.
  { unfold index_match. rewrite D. cbn. rewrite (so_i1 _ _ _ _ S), (so_i2 _ _ _ _ S).
    destruct C as [C|C]; [|].
    - destruct (Z.eqb_spec n 0); [|lia]. destruct W as (_ & _ & _ & _ & W). destruct (n =? 0) eqn:E; [|lia].
      destruct W as [W _]. specialize (Z0 C). subst i. unfold first_index. rewrite W. reflexivity.
    - destruct (Z.eqb_spec n 0); lia. }
  split; auto.
  destruct (stored_shown pkt n [w] i t) as [_ (w' & [<-|[]] & H)]; auto.
  exists w. split; [left; auto|auto].
Qed.

(** what a listener has heard about one index *)
Definition heard_all (c : consumer) (P : ctx -> Prop) (n i : Z) (ws : list wtlv) (tr : list event) : Prop :=
  c_tlv c = true -> forall w, In w ws -> concerns n w i -> exists x t, P x /\ shows pkt n i w t /\ In (EvTlv (c_id c) x t) tr.

Lemma schedule_hears_all c x n i ws tlvs st : kept n ws tlvs -> 0 <= i <= 255 -> (n = 0 -> i = 0) ->
  wp TF (fun '(res, tlvs', st') => res = OKAY /\ mono st st' /\ kept n ws tlvs' /\ heard_all c (eq x) n i ws (d_trace st'))
    (schedule_tlvblock cb pkt c x tlvs i st).
Proof.
  intros K Hi Z0. pose proof (schedule_hears c x i tlvs st) as X.
  destruct (schedule_tlvblock cb pkt c x tlvs i st) as [[[res tlvs'] st']|]; [|exact I]. cbn [wp] in *. destruct X as (-> & A1 & A2 & A3).
  split; auto. split; auto. split; [eapply kept_moved; eauto|].
  intros Hc w Hw C. destruct (K w Hw) as (W & t & I & S). destruct (kept_match n w i t W Hi S C Z0) as [IM SH].
  exists x, (shown i t). split; auto. split; auto. rewrite Forall_forall in A3. now apply A3.
Qed.

Lemma heard_all_mono c P n i ws st st' : mono st st' -> heard_all c P n i ws (d_trace st) -> heard_all c P n i ws (d_trace st').
Proof. intros M H H1 w H2 H3. destruct (H H1 w H2 H3) as (x & t & A & B & C). exists x, t. split; auto. Qed.

Section Msg.
Context (seq : option Z) (start : Z) (M : wmsg) (h : mhdr).
Hypothesis W : wf_msg M.
Hypothesis HH : header_of M h.

Definition kept_block (off : Z) (b : wblock) (ab : ablock) : Prop :=
  decodes_addrs pkt (wm_addrlen M) off b ab /\ kept (wb_num b) (wb_tlvs b) (ab_tlvs ab) /\ ab_drop ab = [].
(** a context about address [i] of the block at [off] *)
Definition about (off i : Z) (b : wblock) (x : ctx) : Prop :=
  x_kind x = KAddress /\ x_hdr x = Some h /\ x_pktseq x = seq /\ x_block x = Some off /\ x_index x = i /\
  exists a p r, address b i = Some a /\ prefix_length (wm_addrlen M) b i = Some p /\ from_binary_prefix a 0 p = Some (r, x_addr x).
Definition heard_addr (c : consumer) (off i : Z) (b : wblock) (tr : list event) : Prop :=
  (c_start c = true -> exists x, about off i b x /\ In (EvStart (c_id c) x) tr) /\
  (c_end c = true -> exists x, about off i b x /\ In (EvEnd (c_id c) x false) tr) /\
  heard_all c (about off i b) (wb_num b) i (wb_tlvs b) tr.
Lemma heard_addr_mono c off i b st st' : mono st st' -> heard_addr c off i b (d_trace st) -> heard_addr c off i b (d_trace st').
Proof.
  intros X (H1 & H2 & H3). split; [|split].
  - intros E. destruct (H1 E) as (x & ? & ?). exists x. auto.
  - intros E. destruct (H2 E) as (x & ? & ?). exists x. auto.
  - eapply heard_all_mono; eauto.
Qed.

Lemma addr_loop_hears c off b (Wb : wf_block (wm_addrlen M) b) is_ : forall ab st, kept_block off b ab -> Forall (fun i => 0 <= i < wb_num b) is_ ->
  wp TF (fun '(res, ab', st') => res = OKAY /\ mono st st' /\ kept_block off b ab' /\
      Forall (fun i => heard_addr c off i b (d_trace st')) is_)
    (addr_loop cb pkt c seq h is_ ab st).
Proof.
  induction is_ as [|i is_ IH]; intros ab st K F; cbn [addr_loop].
  - cbn. split; auto. split; [apply mono_refl|]. split; auto.
  - inversion F as [|? ? Hi F']; subst. destruct K as (K1 & K2 & K3). rewrite K3. cbn [zmem existsb].
    assert (mh_addr_len h = wm_addrlen M) as -> by apply HH.
    destruct (assemble_decodes pkt (wm_addrlen M) off b ab i Wb) as (addr & a & p & r & na & -> & R1 & R2 & R3 & R4); auto.
    { apply W. }
    cbn [obind]. set (x := mkactx seq h ab na i).
    assert (about off i b x) as AX.
    { unfold about, x. cbn. rewrite (da_ptr _ _ _ _ _ K1). do 5 (split; [reflexivity|]). exists a, p, r. auto. }
    match goal with |- context [let '(st, res) := ?X in _] => assert (exists st1, X = (st1, OKAY) /\ mono st st1 /\ (c_start c = true -> In (EvStart (c_id c) x) (d_trace st1))) as (st1 & -> & M1 & S1) end.
    { destruct (c_start c).
      - destruct (call cb st _) as [st1 a1] eqn:EC. apply call_hears in EC as (C1 & C2 & C3). rewrite C3. exists st1. auto.
      - exists st. split; auto. split; [apply mono_refl|discriminate]. }
    change (OKAY =? OKAY) with true. cbn iota.
    assert (0 <= i <= 255) as Hi2.
    { destruct Wb as (B1 & _). lia. }
    eapply wp_bind; [apply (schedule_hears_all c x (wb_num b) i (wb_tlvs b)); auto; lia|].
    intros [[res tlvs'] st2] (-> & M2 & K2' & HA).
    match goal with |- context [let '(st, res) := ?X in _] => assert (exists st3, X = (st3, OKAY) /\ mono st2 st3 /\ (c_end c = true -> In (EvEnd (c_id c) x false) (d_trace st3))) as (st3 & -> & M3 & S3) end.
    { destruct (c_end c).
      - change (negb (OKAY =? OKAY)) with false. destruct (call cb st2 _) as [st3 a1] eqn:EC. apply call_hears in EC as (C1 & C2 & C3). rewrite C3. exists st3. auto.
      - exists st2. split; auto. split; [apply mono_refl|discriminate]. }
    change (OKAY =? DROP_ADDRESS) with false. cbn iota. change (OKAY =? OKAY) with true. cbn [negb]. cbn iota.
    assert (kept_block off b (ab_upd ab addr tlvs' (ab_drop ab))) as K'.
    { split; [apply R4|]. cbn. auto. }
    rewrite K3 in K'. specialize (IH _ st3 K' F').
    destruct (addr_loop cb pkt c seq h is_ (ab_upd ab addr tlvs' []) st3) as [[[res ab'] st']|]; [|exact I]. cbn [wp] in *.
    destruct IH as (-> & B1 & B2 & B3). split; auto. split; [eauto using mono_trans|]. split; auto. constructor; auto.
    apply (heard_addr_mono c off i b st3); auto. split; [|split].
    + intros E. exists x. split; auto.
    + intros E. exists x. split; auto.
    + intros E w I1 I2. destruct (HA E w I1 I2) as (x' & t & <- & T2 & T3). exists x, t. auto.
Qed.

Fixpoint kept_blocks (off : Z) (bs : list wblock) (abs : list ablock) : Prop :=
  match bs, abs with
  | [], [] => True
  | b :: bs', ab :: abs' => kept_block off b ab /\ kept_blocks (off + zlen (enc_block b)) bs' abs'
  | _, _ => False
  end.
Fixpoint heard_blocks (c : consumer) (off : Z) (bs : list wblock) (tr : list event) : Prop :=
  match bs with
  | [] => True
  | b :: bs' => (forall i, 0 <= i < wb_num b -> heard_addr c off i b tr) /\ heard_blocks c (off + zlen (enc_block b)) bs' tr
  end.
Lemma heard_blocks_mono c bs st st' : mono st st' -> forall off, heard_blocks c off bs (d_trace st) -> heard_blocks c off bs (d_trace st').
Proof.
  intros X. induction bs as [|b bs IH]; intros off; cbn; auto. intros [H1 H2]. split; auto. intros i Hi.
  eapply heard_addr_mono; eauto.
Qed.

Lemma blocks_loop_hears c bs : Forall (wf_block (wm_addrlen M)) bs -> forall off abs st, kept_blocks off bs abs ->
  wp TF (fun '(res, abs', st') => res = OKAY /\ mono st st' /\ kept_blocks off bs abs' /\ heard_blocks c off bs (d_trace st'))
    (blocks_loop cb pkt c seq h abs st).
Proof.
  intros F. induction F as [|b bs Hb _ IH]; intros off [|ab abs] st; cbn [kept_blocks blocks_loop heard_blocks]; try tauto.
  - intros _. cbn. split; auto. split; [apply mono_refl|auto].
  - intros [K1 K2].
    assert (ab_num ab = wb_num b) as EN by (destruct K1 as [K1 _]; apply (da_num _ _ _ _ _ K1)).
    eapply wp_bind; [apply (addr_loop_hears c off b Hb); auto|].
    { rewrite EN. apply Forall_forall. intros i Hi. apply zrange_In in Hi. destruct Hb as (B1 & _). lia. }
    intros [[res ab'] st1] (-> & M1 & K1' & H1). change (OKAY =? OKAY) with true. cbn [negb].
    eapply wp_bind; [apply (IH (off + zlen (enc_block b))); auto|].
    intros [[res abs'] st2] (-> & M2 & K2' & H2). cbn. split; auto. split; [eauto using mono_trans|]. split; auto. split; auto.
    intros i Hi. apply (heard_addr_mono c off i b st1); auto. rewrite Forall_forall in H1. apply H1. rewrite EN. apply zrange_In. lia.
Qed.

Definition heard_msg (c : consumer) (tr : list event) : Prop :=
  if c_addrblock c then heard_blocks c (start + msg_size M - zlen (flat_map enc_block (wm_blocks M))) (wm_blocks M) tr
  else
    let X := mkctx KMessage seq (Some h) na_unspec 0 in
    (c_start c = true -> In (EvStart (c_id c) X) tr) /\ heard_all c (eq X) 0 0 (wm_tlvs M) tr.
Lemma heard_msg_mono c st st' : mono st st' -> heard_msg c (d_trace st) -> heard_msg c (d_trace st').
Proof.
  intros X. unfold heard_msg. destruct (c_addrblock c); [now apply heard_blocks_mono|]. intros [H1 H2]. split; auto.
  eapply heard_all_mono; eauto.
Qed.

Lemma end_cbs_hears x ty l : forall st, exists st', end_cbs cb x ty l OKAY st = (OKAY, st') /\ mono st st'.
Proof.
  induction l as [|c l IH]; intros st; cbn [end_cbs].
  - exists st. split; auto. apply mono_refl.
  - destruct (c_end c && negb (c_addrblock c) && c_handles ty c); auto.
    destruct (call cb st _) as [st1 a] eqn:EC. apply call_hears in EC as (C1 & C2 & C3). rewrite C3.
    change (OKAY >? OKAY) with false. cbn iota. destruct (IH st1) as (st' & -> & M2). exists st'. split; auto. eapply mono_trans; eauto.
Qed.

Let OFF := start + msg_size M - zlen (flat_map enc_block (wm_blocks M)).
Lemma cons_loop_hears all rest : forall i grp o1 tlvs abs st, kept 0 (wm_tlvs M) tlvs -> kept_blocks OFF (wm_blocks M) abs ->
  wp TF (fun '(res, grp', tlvs', abs', st') => res = OKAY /\ mono st st' /\
      Forall (fun c => c_handles (mh_type h) c = true -> heard_msg c (d_trace st')) rest)
    (cons_loop cb pkt all seq h i rest grp o1 tlvs abs st).
Proof.
  induction rest as [|c rest IH]; intros i grp o1 tlvs abs st K1 K2; cbn [cons_loop].
  - cbn. split; auto. split; [apply mono_refl|constructor].
  - destruct (c_handles (mh_type h) c) eqn:EH; cbn [negb].
    2:{ specialize (IH (S i) grp o1 tlvs abs st K1 K2). destruct (cons_loop _ _ _ _ _ _ _ _ _ _ _ _) as [[[[[res g] tl] ab] st']|]; [|exact I].
        cbn [wp] in *. destruct IH as (A & B & C). split; auto. split; auto. constructor; auto. congruence. }
    set (X := mkctx KMessage seq (Some h) na_unspec 0).
    match goal with |- wp _ _ (let (_, _) := ?Y in _) => assert (exists g st1, Y = (OKAY, g, st1) /\ mono st st1) as (g & st1 & -> & M1) end.
    { destruct grp as [[f l]|]; [destruct (c_order c >? o1)|].
      - unfold schedule_end. destruct (end_cbs_hears X (mh_type h) (rev (range all f l)) (set_kind st KMessage)) as (st' & -> & M'). eauto.
      - do 2 eexists. split; [reflexivity|apply mono_refl].
      - do 2 eexists. split; [reflexivity|apply mono_refl]. }
    change (OKAY =? OKAY) with true. cbn [negb].
    destruct (c_addrblock c) eqn:EA.
    + eapply wp_bind; [apply (blocks_loop_hears c (wm_blocks M)) with (off := OFF); auto; apply W|].
      intros [[res abs'] st2] (-> & M2 & K2' & H2). change (OKAY =? OKAY) with true. cbn [negb].
      specialize (IH (S i) g o1 tlvs abs' st2 K1 K2'). destruct (cons_loop _ _ _ _ _ _ _ _ _ _ _ _) as [[[[[res g'] tl] ab] st']|]; [|exact I].
      cbn [wp] in *. destruct IH as (-> & B & C). split; auto. split; [eapply mono_trans; [exact M1|]; eapply mono_trans; [exact M2|exact B]|].
      constructor; auto. intros _. apply (heard_msg_mono c st2); auto. unfold heard_msg. rewrite EA. exact H2.
    + unfold schedule_msgtlv.
      match goal with |- context [let '(st, res) := ?Y in if res =? OKAY then _ else _] => 
        assert (exists st2, Y = (st2, OKAY) /\ mono st1 st2 /\ (c_start c = true -> In (EvStart (c_id c) X) (d_trace st2))) as (st2 & -> & M2 & S2) end.
      { destruct (c_start c).
        - destruct (call cb _ _) as [st2 a1] eqn:EC. apply call_hears in EC as (C1 & C2 & C3). rewrite C3. exists st2. auto.
        - eexists. split; [reflexivity|]. split; [apply (mono_refl st1)|discriminate]. }
      change (OKAY =? OKAY) with true. cbn iota.
      eapply wp_bind; [apply (schedule_hears_all c X 0 0 (wm_tlvs M)); auto; lia|].
      intros [[res tlvs'] st3] (-> & M3 & K1' & HA). change (OKAY =? OKAY) with true. cbn [negb].
      match goal with |- wp _ _ (cons_loop _ _ _ _ _ _ _ ?G _ _ _ _) => specialize (IH (S i) G (c_order c) tlvs' abs st3 K1' K2) end.
      destruct (cons_loop _ _ _ _ _ _ _ _ _ _ _ _) as [[[[[res g'] tl] ab] st']|]; [|exact I].
      cbn [wp] in *. destruct IH as (-> & B & C). split; auto.
      split; [eapply mono_trans; [exact M1|]; eapply mono_trans; [exact M2|]; eapply mono_trans; [exact M3|exact B]|].
      constructor; auto. intros _. apply (heard_msg_mono c st3); auto. unfold heard_msg. rewrite EA. split; auto.
Qed.

Lemma dispatch_hears all msg st : ms_hdr msg = h -> kept 0 (wm_tlvs M) (ms_tlvs msg) -> kept_blocks OFF (wm_blocks M) (ms_addrs msg) ->
  wp TF (fun '(res, st') => res = OKAY /\ mono st st' /\ Forall (fun c => c_handles (mh_type h) c = true -> heard_msg c (d_trace st')) all)
    (dispatch_message cb pkt all seq msg st).
Proof.
  intros E K1 K2. unfold dispatch_message. rewrite E. eapply wp_bind; [apply cons_loop_hears; auto|].
  intros [[[[res grp] tl] ab] st1] (-> & M1 & F). destruct grp as [[f l]|]; [|cbn; auto].
  unfold schedule_end. destruct (end_cbs_hears (mkctx KMessage seq (Some h) na_unspec 0) (mh_type h) (rev (range all f l)) (set_kind st1 KMessage)) as (st' & -> & M').
  cbn. split; auto. split; [eapply mono_trans; eauto|]. eapply Forall_impl; [|exact F]. cbn. intros c Hc Hh.
  apply (heard_msg_mono c st1); auto.
Qed.
End Msg.

Context (alloc : nat -> bool) (fwd : bool).
Hypothesis A : forall n, alloc n = true.

Lemma tlv_insert_In t a l : t = a \/ In t l -> In t (tlv_insert a l).
Proof.
  induction l as [|b l IH]; cbn; [intros [->|[]]; auto|]. destruct (_ <? _) eqn:E; cbn; intuition (subst; auto).
Qed.
Lemma decoded_kept n ws ts : Forall (wf_tlv n) ws -> Forall2 (decodes pkt n) ws ts -> kept n ws (insert_all ts []).
Proof.
  intros F D w Hw. rewrite Forall_forall in F. split; auto.
  assert (forall ts acc t, In t acc \/ In t ts -> In t (insert_all ts acc)) as X.
  { clear. induction ts as [|t0 ts IH]; intros acc t; cbn; [tauto|]. intros [H|[->|H]]; apply IH; auto; left; apply tlv_insert_In; auto. }
  destruct (Forall2_In _ _ _ _ D Hw) as (t & I & d). exists t. split; [apply X; auto|]. split; [now apply decodes_stored|apply (dc_drop _ _ _ _ d)].
Qed.
Lemma decoded_kept_blocks al bs : Forall (wf_block al) bs -> forall M off abs, wm_addrlen M = al ->
  decodes_blocks pkt al off bs abs -> kept_blocks M off bs abs.
Proof.
  intros F. induction F as [|b bs Hb _ IH]; intros M off [|ab abs] E; cbn; auto. intros (D1 & D2 & (ts & D3 & D4) & D5).
  split; auto. subst al. split; auto. split; auto. rewrite D4. apply decoded_kept; auto. apply Hb.
Qed.

Lemma handle_message_hears seq start M all eob st m : wf_msg M -> holds pkt start (enc_msg M) -> start + msg_size M <= eob ->
  exists h, header_of M h /\ wp TF (fun '(res, p, st', m') => res = OKAY /\ p = start + msg_size M /\ mono st st' /\
     Forall (fun c => c_handles (wm_type M) c = true -> heard_msg seq start M h c (d_trace st')) all)
    (handle_message cb pkt alloc fwd all seq start eob st m).
Proof.
  intros W HM L. unfold handle_message.
  destruct (parse_message_decodes alloc pkt A M start eob m W HM L) as (msg & m1 & -> & HH & ES & (ts & D1 & D2) & DB).
  exists (ms_hdr msg). split; auto. cbn [obind]. change (OKAY =? OKAY) with true. cbn iota.
  eapply wp_bind; [apply (dispatch_hears seq start M (ms_hdr msg) W HH all msg (reset_dnf st)); auto|].
  - rewrite D2. apply decoded_kept; auto. apply W.
  - eapply decoded_kept_blocks; eauto. apply W.
  - intros [res st1] (-> & M1 & F). cbn [wp]. change (OKAY >? OKAY) with false. cbn [andb]. cbn iota.
    pose proof HH as (HT & _ & _ & HS & _). rewrite HS. split; auto. split; auto.
    assert (forall st2, mono st1 st2 -> mono st st2 /\ Forall (fun c => c_handles (wm_type M) c = true -> heard_msg seq start M (ms_hdr msg) c (d_trace st2)) all) as X.
    { intros st2 M2. split; [eapply mono_trans; eauto|]. eapply Forall_impl; [|exact F]. cbn. intros c Hc Hh.
      apply (heard_msg_mono _ _ _ _ c st1); auto. apply Hc. now rewrite HT. }
    destruct (_ && _ && _ && _).
    + destruct (call cb (set_kind st1 KMessage) _) as [st3 a] eqn:ECa. cbn [fst]. apply call_hears in ECa as (C1 & _). apply X. exact C1.
    + apply X. apply mono_refl.
Qed.

Definition heard_in (seq : option Z) (start0 : Z) (Ms : list wmsg) (all : list consumer) (tr : list event) : Prop :=
  forall before M after c, Ms = before ++ M :: after -> In c all -> c_handles (wm_type M) c = true ->
    exists h, header_of M h /\ heard_msg seq (start0 + zlen (flat_map enc_msg before)) M h c tr.

Lemma message_loop_hears seq all eob Ms : Forall wf_msg Ms -> forall fuel ptr st m,
  holds pkt ptr (flat_map enc_msg Ms) -> ptr + zlen (flat_map enc_msg Ms) = eob ->
  wp TF (fun '(res, st', m') => res = OKAY /\ mono st st' /\ heard_in seq ptr Ms all (d_trace st'))
    (message_loop cb pkt alloc fwd fuel all seq ptr eob st m).
Proof.
  intros F. induction F as [|M Ms HM _ IH]; intros fuel ptr st m H E; cbn [flat_map] in *.
  - change (zlen (@nil Z)) with 0 in *. assert (wp TF (fun '(res, st', m') => res = OKAY /\ mono st st' /\ heard_in seq ptr [] all (d_trace st')) (Ok (OKAY, st, m))) as X.
    { cbn. split; auto. split; [apply mono_refl|]. intros before M after c EE. now apply app_cons_not_nil in EE. }
    destruct fuel; cbn [message_loop]; (destruct (Z.leb_spec eob ptr); [exact X|lia]).
  - rewrite zlen_app in *. pose proof (enc_msg_pos M) as X1. pose proof (zlen_nonneg (flat_map enc_msg Ms)) as X2.
    destruct fuel as [|fuel]; cbn [message_loop]; (destruct (Z.leb_spec eob ptr); [lia|]); [exact I|].
    apply holds_app in H as [H1 H2]. rewrite zlen_enc_msg in *.
    destruct (handle_message_hears seq ptr M all eob st m HM H1 ltac:(lia)) as (h & HH & X).
    eapply wp_bind; [exact X|]. intros [[[res p] st1] m1] (-> & -> & M1 & F1). change (OKAY =? OKAY) with true. cbn [negb].
    specialize (IH fuel (ptr + msg_size M) st1 m1 H2 ltac:(lia)).
    destruct (message_loop cb pkt alloc fwd fuel all seq (ptr + msg_size M) eob st1 m1) as [[[res st2] m2]|]; [|exact I].
    cbn [wp] in *. destruct IH as (-> & M2 & HI). split; auto. split; [eapply mono_trans; eauto|].
    intros before M' after c EM Hc Hh. destruct before as [|b before].
    + cbn in EM. injection EM as <- <-. cbn [flat_map]. change (zlen (@nil Z)) with 0. rewrite Z.add_0_r. exists h. split; auto.
      rewrite Forall_forall in F1. apply (heard_msg_mono seq ptr M h c st1); auto.
    + cbn in EM. injection EM as <- EM. cbn [flat_map]. rewrite zlen_app, zlen_enc_msg, Z.add_assoc. eapply HI; eauto.
Qed.

Lemma pkt_loop_hears seq ht ws rest : (ht = false -> ws = []) -> forall tlvs n st, kept 0 ws tlvs ->
  let X := mkctx KPacket seq None na_unspec 0 in
  wp TF (fun '(res, tlvs', n', st') => res = OKAY /\ mono st st' /\
     Forall (fun c => (c_start c = true -> In (EvStart (c_id c) X) (d_trace st')) /\ heard_all c (eq X) 0 0 ws (d_trace st')) rest)
    (pkt_loop cb pkt rest seq ht tlvs n st).
Proof.
  intros HT tlvs n st K X. revert tlvs n st K. induction rest as [|c rest IH]; intros tlvs n st K; cbn [pkt_loop].
  - cbn. split; auto. split; [apply mono_refl|constructor].
  - fold X. match goal with |- context [let '(st, res) := ?Y in _] => 
        assert (exists st2, Y = (st2, OKAY) /\ mono st st2 /\ (c_start c = true -> In (EvStart (c_id c) X) (d_trace st2))) as (st2 & -> & M2 & S2) end.
    { destruct (c_start c).
      - destruct (call cb _ _) as [st2 a1] eqn:EC. apply call_hears in EC as (C1 & C2 & C3). rewrite C3. exists st2. auto.
      - eexists. split; [reflexivity|]. split; [apply mono_refl|discriminate]. }
    change (OKAY =? OKAY) with true. cbn [negb andb].
    assert (forall tlvs' st3, kept 0 ws tlvs' -> mono st2 st3 -> heard_all c (eq X) 0 0 ws (d_trace st3) ->
      wp TF (fun '(res, tlvs', n', st') => res = OKAY /\ mono st st' /\
        Forall (fun c => (c_start c = true -> In (EvStart (c_id c) X) (d_trace st')) /\ heard_all c (eq X) 0 0 ws (d_trace st')) (c :: rest))
      (pkt_loop cb pkt rest seq ht tlvs' (S n) st3)) as Y.
    { intros tlvs' st3 K' M3 HA. specialize (IH tlvs' (S n) st3 K').
      destruct (pkt_loop _ _ _ _ _ _ _ _) as [[[[res tl] n'] st']|]; [|exact I]. cbn [wp] in *. destruct IH as (-> & M4 & F). split; auto.
      split; [eapply mono_trans; [exact M2|]; eapply mono_trans; [exact M3|exact M4]|]. constructor; auto. split; [intros E; apply M4, M3; auto|].
      eapply heard_all_mono; eauto. }
    destruct (ht && (c_tlv c || c_block c)) eqn:EB.
    + eapply wp_bind; [apply (schedule_hears_all c X 0 0 ws); auto; lia|].
      intros [[res tlvs'] st3] (-> & M3 & K' & HA). change (OKAY =? OKAY) with true. cbn [negb]. now apply Y.
    + apply Y; auto; [apply mono_refl|]. intros E. rewrite E in EB. destruct ht; [discriminate|].
      rewrite (HT eq_refl). intros w [].
Qed.

Lemma pkt_end_hears seq res l : forall st, mono st (pkt_end cb l seq res st).
Proof.
  induction l as [|c l IH]; intros st; cbn [pkt_end]; [apply mono_refl|].
  destruct (c_end c); auto. eapply mono_trans; [|apply IH].
  destruct (call cb st _) as [st2 a] eqn:ECa. cbn [fst]. apply call_hears in ECa. tauto.
Qed.
End C.
