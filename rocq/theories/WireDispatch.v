(** Everything the dispatcher shows to consumers comes from the parsed lists:
    lemmas over an arbitrary predicate on events. *)
From Verif Require Import Base BitsModel BitsProofs BufLemmas NetaddrModel ReaderModel ReadDispModel ReaderSpec ReaderProofs ReadDispProofs ReadTlvProofs.

Section G.
Context (cb : list event -> answer) (pkt : bytes) (EV : event -> Prop).
Notation NF := (fun _ : rfault => False).
Notation HI := (zlen pkt).

Definition grows (st st' : ds) : Prop := exists new, d_trace st' = new ++ d_trace st /\ Forall EV new.
Lemma grows_refl st : grows st st. Proof. exists []. auto. Qed.
Lemma grows_trans a b c : grows a b -> grows b c -> grows a c.
Proof.
  intros (n1 & E1 & F1) (n2 & E2 & F2). exists (n2 ++ n1). rewrite E2, E1, app_assoc. split; auto. apply Forall_app; auto.
Qed.
Lemma grows_kind st k st' : grows (set_kind st k) st' -> grows st st'. Proof. auto. Qed.
Lemma grows_dnf st st' : grows (reset_dnf st) st' -> grows st st'. Proof. auto. Qed.
Lemma call_grows st ev st' a : call cb st ev = (st', a) -> EV ev -> grows st st' /\ from_cb cb (a_res a).
Proof.
  unfold call. intros [= <- <-] H. split; [exists [ev]; auto|]. right. eauto.
Qed.

Section T.
Context (c : consumer) (x : ctx) (idx : Z) (SP DP : tlv -> Prop).
Hypothesis Hdrop : forall t i, SP t -> SP (t_set_drop t i).
Hypothesis Hshow : forall t, SP t -> index_match idx t = true -> SP (shown idx t) /\ DP (shown idx t).
Hypothesis Hdd : forall t i, DP t -> DP (t_set_drop t i).
Hypothesis Hlen : forall t, DP t -> tlv_delivered_in 0 HI t.
Hypothesis E1 : forall t, DP t -> EV (EvTlv (c_id c) x t).
Hypothesis E2 : forall f views, Forall (fun v => Forall DP (fst v)) views -> EV (EvBlock (c_id c) x f views).

Definition cur_fit (v : list (nat * tlv) * option bytes) : Prop := Forall (fun p => DP (snd p)) (fst v).
Record sl_fit (st0 : ds) (s : sl) : Prop := {
  sf_done : Forall SP (sl_done s);
  sf_tlvs : Forall SP (sl_tlvs s);
  sf_cur : cur_fit (sl_cur s);
  sf_views : Forall cur_fit (sl_views s);
  sf_st : grows st0 (sl_st s)
}.

Lemma copy_value_fit e t : DP t -> wp NF (fun _ => True) (copy_value pkt e t).
Proof.
  intros D. apply Hlen in D. unfold copy_value. destruct (ce_copy e); cbn [andb]; [|exact I].
  destruct (Z.gtb_spec (t_length t) 0); [|exact I].
  destruct (D ltac:(lia)) as (v & -> & V0 & V1).
  destruct (copy_out_Some pkt v (Z.to_nat (if t_length t <? ce_max e then t_length t else ce_max e))) as (b & -> & _).
  - lia.
  - destruct (Z.ltb_spec (t_length t) (ce_max e)); lia.
  - exact I.
Qed.

Lemma sched_match_fit e t pos im cur failed : cur_fit cur -> (im = true -> exists t', t = Some t' /\ DP t') ->
  wp NF (fun r => cur_fit (snd r)) (sched_match pkt e t pos im cur failed).
Proof.
  intros Hc Ht. unfold sched_match. destruct im; [|exact Hc].
  destruct (Ht eq_refl) as (t' & -> & D). destruct (fst cur) eqn:E.
  - eapply wp_bind; [apply copy_value_fit; auto|]. intros v _. cbn. repeat constructor. auto.
  - cbn. unfold cur_fit in *. cbn [fst] in *. rewrite E in Hc. apply (Forall_app _ (_ :: _)). split; auto.
Qed.

Lemma sched_step_fit st0 s : sl_fit st0 s -> (sl_tlvs s <> [] \/ sl_ents s <> []) ->
  wp NF (fun '(res, s') => sl_fit st0 s' /\ from_cb cb res /\ (res = OKAY -> (sl_measure s' < sl_measure s)%nat))
    (sched_step cb pkt c x idx s).
Proof.
  intros [S1 S2 S3 S4 S5] NE. unfold sched_step, sl_measure.
  destruct (sl_tlvs s) as [|t r] eqn:ET.
  - destruct (sl_ents s) as [|e er] eqn:EE; [destruct NE; congruence|].
    cbn -[wp]. unfold sched_match. cbn -[wp].
    cbn. split; [constructor; cbn; auto; constructor|]. split; [left; auto|]. cbn. lia.
  - inversion S2 as [|? ? Ht Hr]; subst.
    set (im := index_match idx t).
    set (t1 := if im && t_multi t then _ else t).
    assert (t1 = if im then shown idx t else t) as Et1.
    { unfold t1, shown. destruct im, (t_multi t); auto. }
    assert (SP t1) as Ht1.
    { rewrite Et1. unfold im. destruct (index_match idx t) eqn:EI; auto. apply Hshow; auto. }
    assert (im = true -> DP t1) as Hd1.
    { intros EI. rewrite Et1, EI. apply Hshow; auto. }
    assert (forall o, cmp_types (Some t1) o = cmp_types (Some t) o) as Hcmp.
    { intros o. unfold t1. destruct (im && t_multi t); auto. }
    set (m0 := match sl_ents s with [] => false | e :: _ => im && (cmp_types (Some t) (Some e) =? 0) end).
    assert (m0 = true -> im = true /\ sl_ents s <> []) as Hm0.
    { unfold m0. destruct (sl_ents s); [discriminate|]. intros E. apply andb_prop in E. split; [tauto|discriminate]. }
    destruct (if im && c_tlv c then _ else _) as [[[res tlvs] ism] st] eqn:EC.
    assert (exists t2, tlvs = t2 :: r /\ SP t2 /\ grows st0 st /\ from_cb cb res /\
              (ism = true -> im = true /\ sl_ents s <> []) /\ (im = true -> DP t2) /\
              (forall o, cmp_types (Some t2) o = cmp_types (Some t) o)) as (t2 & -> & Ht2 & Hst & Hres & Him & Hd2 & Hc2).
    { destruct (im && c_tlv c) eqn:EB.
      - destruct (call cb (sl_st s) (EvTlv (c_id c) x t1)) as [st' a] eqn:ECa.
        apply andb_prop in EB as [EB _].
        destruct (call_grows _ _ _ _ ECa (E1 _ (Hd1 EB))) as (G & ?). pose proof (grows_trans _ _ _ S5 G).
        destruct (a_res a =? DROP_TLV); injection EC as <- <- <- <-.
        + exists (t_set_drop t1 idx). split; auto. split; [apply Hdrop; auto|]. split; auto.
          split; [left; auto|]. split; [discriminate|]. split; [auto|]. intros o. rewrite <- Hcmp. reflexivity.
        + exists t1. auto 12.
      - injection EC as <- <- <- <-. exists t1. assert (from_cb cb OKAY) by (left; auto). auto 12. }
    clear EC. destruct (Z.eqb_spec res OKAY) as [->|NR]; cbn [negb].
    2:{ cbn. split; [constructor; cbn; auto; constructor; auto|]. split; [auto|]. congruence. }
    cbn [hd_error].
    set (d := cmp_types (Some t2) (hd_error (sl_ents s))) in *.
    apply (wp_bind _ (fun '(failed, cur) => cur_fit cur)).
    { destruct (Z.geb_spec d 0) as [Hd|Hd]; [|exact S3].
      destruct (sl_ents s) as [|e er] eqn:EE.
      - exfalso. unfold d in Hd. cbn in Hd. lia.
      - eapply wp_mono; [apply sched_match_fit; auto|].
        + intros EI. exists t2. split; auto. apply Hd2, Him, EI.
        + now intros [? ?]. }
    intros [failed cur] Hcur.
    destruct (Z.leb_spec d 0) as [Hd|Hd].
    + destruct (Z.gtb_spec (cmp_types (hd_error r) (hd_error (sl_ents s))) 0) as [G|G].
      * destruct (sl_ents s) as [|e er] eqn:EE.
        { exfalso. destruct r; cbn in G; lia. }
        cbn. split; [constructor; cbn; auto; constructor; auto|]. split; [left; auto|]. intros; lia.
      * cbn. split; [constructor; cbn; auto; constructor; auto|]. split; [left; auto|]. intros; lia.
    + cbn [hd_error]. fold d. destruct (Z.gtb_spec d 0) as [G|G]; [|lia].
      destruct (sl_ents s) as [|e er] eqn:EE; [exfalso; unfold d in G; cbn in G; lia|].
      cbn. split; [constructor; cbn; auto; constructor; auto|]. split; [left; auto|]. intros; lia.
Qed.

Lemma sched_loop_fit st0 fuel : forall s, sl_fit st0 s -> (sl_measure s <= fuel)%nat ->
  wp NF (fun '(res, s') => sl_fit st0 s' /\ from_cb cb res) (sched_loop cb pkt fuel c x idx s).
Proof.
  induction fuel as [|fuel IH]; intros s Hs Hf; cbn [sched_loop].
  - unfold sl_measure in Hf. destruct (sl_tlvs s) eqn:X1, (sl_ents s) eqn:X2; cbn in Hf; try lia. cbn.
    split; auto. left; auto.
  - destruct (match sl_tlvs s with [] => match sl_ents s with [] => true | _ => false end | _ => false end) eqn:EE.
    + destruct (sl_tlvs s) eqn:X1, (sl_ents s) eqn:X2; try discriminate. cbn. split; auto. left; auto.
    + assert (wp NF (fun '(res, s') => sl_fit st0 s' /\ from_cb cb res)
        (do '(res, s0) <- sched_step cb pkt c x idx s;
         if negb (res =? OKAY) then Ok (res, s0) else sched_loop cb pkt fuel c x idx s0)) as X.
      { eapply wp_bind; [apply (sched_step_fit st0); auto|].
        { destruct (sl_tlvs s), (sl_ents s); try discriminate; [right|left|left]; discriminate. }
        intros [res s'] (H1 & H2 & H3). destruct (Z.eqb_spec res OKAY) as [->|]; cbn [negb]; [|cbn; auto].
        specialize (H3 eq_refl). apply IH; auto; lia. }
      destruct (sl_tlvs s), (sl_ents s); try discriminate; exact X.
Qed.

Lemma mark_drops_fit views : forall drops tlvs, Forall SP tlvs -> Forall SP (mark_drops idx views drops tlvs).
Proof.
  induction views as [|v views IH]; intros [|dr drops] tlvs H; cbn [mark_drops]; auto.
  apply IH. destruct (fst v) as [|[p q] ?]; auto. destruct dr; auto.
  destruct (nth_error tlvs p) eqn:E; auto. apply Forall_set_nth; auto. apply Hdrop. apply nth_error_In in E.
  rewrite Forall_forall in H. auto.
Qed.

Lemma schedule_tlvblock_fit tlvs st : Forall SP tlvs ->
  wp NF (fun '(res, tlvs', st') => Forall SP tlvs' /\ grows st st' /\ from_cb cb res)
    (schedule_tlvblock cb pkt c x tlvs idx st).
Proof.
  intros Ht. unfold schedule_tlvblock.
  eapply wp_bind; [apply (sched_loop_fit st)|].
  { constructor; cbn; auto; [constructor|]. apply grows_refl. }
  { unfold sl_measure. cbn. lia. }
  intros [res s] ([S1 S2 S3 S4 S5] & Hres).
  assert (Forall SP (rev (sl_done s) ++ sl_tlvs s)) as HT.
  { apply Forall_app. split; auto. apply Forall_rev. auto. }
  destruct (Z.eqb_spec res OKAY); cbn [negb]; [|cbn; auto].
  assert (Forall (fun v => Forall DP (fst v)) (views_of (rev (sl_views s)))) as HV.
  { unfold views_of. rewrite Forall_map. apply Forall_rev. eapply Forall_impl; [|exact S4].
    intros v Hv. cbn. rewrite Forall_map. exact Hv. }
  destruct (if c_block c && negb (sl_failed s) then _ else _) as [[st' res'] drops] eqn:EC.
  assert (grows st st' /\ from_cb cb res') as [Q1 Q2].
  { destruct (c_block c && negb (sl_failed s)).
    - destruct (call cb (sl_st s) _) as [st2 a] eqn:ECa. injection EC as <- <- <-.
      destruct (call_grows _ _ _ _ ECa) as (G & ?); auto. split; auto. exact (grows_trans _ _ _ S5 G).
    - destruct (c_failed c && sl_failed s).
      + destruct (call cb (sl_st s) _) as [st2 a] eqn:ECa. injection EC as <- <- <-.
        destruct (call_grows _ _ _ _ ECa) as (G & ?); auto. split; auto. exact (grows_trans _ _ _ S5 G).
      + injection EC as <- <- <-. split; auto. left; auto. }
  destruct (res' =? DROP_TLV).
  - cbn. split; [apply mark_drops_fit; auto|]. split; auto. left; auto.
  - cbn. auto.
Qed.
End T.

Lemma start_fit c x (b : bool) st st' res : (if b then let '(st, a) := call cb st (EvStart (c_id c) x) in (st, a_res a) else (st, OKAY)) = (st', res) ->
  EV (EvStart (c_id c) x) -> grows st st' /\ from_cb cb res.
Proof.
  destruct b.
  - destruct (call cb _ _) as [st2 a] eqn:ECa. intros [= <- <-] H. exact (call_grows _ _ _ _ ECa H).
  - intros [= <- <-] _. split; [apply grows_refl|left; auto].
Qed.

(** ** Address blocks: [AP b] is the invariant of a block, [PL i x] the contexts
    that may be shown for its address [i] *)
Section AB.
Context (seq : option Z) (h : mhdr) (AP : ablock -> Prop) (N : Z) (PL : Z -> ctx -> Prop) (SP : tlv -> Prop) (DP : Z -> tlv -> Prop).
Hypothesis Hdrop : forall t i, SP t -> SP (t_set_drop t i).
Hypothesis Hshow : forall idx t, SP t -> index_match idx t = true -> SP (shown idx t) /\ DP idx (shown idx t).
Hypothesis Hdd : forall idx t i, DP idx t -> DP idx (t_set_drop t i).
Hypothesis Hlen : forall idx t, DP idx t -> tlv_delivered_in 0 HI t.
Hypothesis Hnum : forall ab, AP ab -> ab_num ab = N.
Hypothesis Htl : forall ab, AP ab -> Forall SP (ab_tlvs ab).
Hypothesis Hasm : forall ab i, AP ab -> 0 <= i < N ->
  wp NF (fun '(addr, na) => PL i (mkactx seq h ab na i) /\ forall tlvs drop, Forall SP tlvs -> AP (ab_upd ab addr tlvs drop))
    (assemble_addr pkt (mh_addr_len h) ab i).
Hypothesis Ev1 : forall c x i, PL i x -> EV (EvStart c x).
Hypothesis Ev2 : forall c x i f, PL i x -> EV (EvEnd c x f).
Hypothesis Ev3 : forall c x i t, PL i x -> DP i t -> EV (EvTlv c x t).
Hypothesis Ev4 : forall c x i f views, PL i x -> Forall (fun v => Forall (DP i) (fst v)) views -> EV (EvBlock c x f views).

Lemma addr_loop_fit c is_ : forall ab st, AP ab -> Forall (fun i => 0 <= i < N) is_ ->
  wp NF (fun '(res, ab', st') => AP ab' /\ grows st st' /\ from_cb cb res) (addr_loop cb pkt c seq h is_ ab st).
Proof.
  induction is_ as [|i is_ IH]; intros ab st Hab His; cbn [addr_loop].
  - cbn. split; auto. split; [apply grows_refl|]. left; auto.
  - inversion His as [|? ? Hi His']; subst. destruct (zmem i (ab_drop ab)); [apply IH; auto|].
    eapply wp_bind; [apply Hasm; auto|]. intros [addr na] [Hx Hup].
    set (x := mkactx seq h ab na i) in *.
    destruct (if c_start c then _ else _) as [st1 res1] eqn:EC.
    apply start_fit in EC as [Q1 Q2]; [|eauto].
    apply (wp_bind _ (fun '(res, tlvs', st') => Forall SP tlvs' /\ grows st1 st' /\ from_cb cb res)).
    { destruct (res1 =? OKAY).
      - apply (schedule_tlvblock_fit c x i SP (DP i)); eauto.
      - cbn. split; auto. split; [apply grows_refl|auto]. }
    intros [[res2 tlvs] st2] (T1 & T2 & T3).
    destruct (if c_end c then _ else _) as [st3 res3] eqn:EC3.
    assert (grows st st3 /\ from_cb cb res3) as [Q3 Q4].
    { pose proof (grows_trans _ _ _ Q1 T2) as G2. destruct (c_end c).
      - destruct (call cb _ _) as [st4 a] eqn:ECa. injection EC3 as <- <-.
        destruct (call_grows _ _ _ _ ECa) as (G & ?); [eauto|].
        split; [exact (grows_trans _ _ _ G2 G)|]. destruct (_ >? _); auto.
      - injection EC3 as <- <-. auto. }
    destruct (res3 =? DROP_ADDRESS).
    + eapply wp_mono; [apply IH; auto|]. intros [[? ?] ?] (? & G & ?). split; auto. split; auto. exact (grows_trans _ _ _ Q3 G).
    + destruct (res3 =? OKAY); cbn [negb].
      * eapply wp_mono; [apply IH; auto|]. intros [[? ?] ?] (? & G & ?). split; auto. split; auto. exact (grows_trans _ _ _ Q3 G).
      * cbn. auto.
Qed.
Lemma block_fit c ab st : AP ab ->
  wp NF (fun '(res, ab', st') => AP ab' /\ grows st st' /\ from_cb cb res) 
    (addr_loop cb pkt c seq h (zrange 0 (Z.to_nat (ab_num ab))) ab st).
Proof.
  intros H. apply addr_loop_fit; auto. apply Forall_forall. intros i Hi. apply zrange_In in Hi.
  rewrite (Hnum ab H) in Hi. lia.
Qed.
End AB.

(** ** Messages.  [BP k] is the invariant of block number [k]. *)
Section MSG.
Context (seq : option Z) (h : mhdr) (SP : tlv -> Prop) (DP : tlv -> Prop) (BPS : list ablock -> Prop).
Hypothesis Hdrop : forall t i, SP t -> SP (t_set_drop t i).
Hypothesis Hshow : forall t, SP t -> index_match 0 t = true -> SP (shown 0 t) /\ DP (shown 0 t).
Hypothesis Hdd : forall t i, DP t -> DP (t_set_drop t i).
Hypothesis Hlen : forall t, DP t -> tlv_delivered_in 0 HI t.
Hypothesis Hblocks : forall c abs st, BPS abs ->
  wp NF (fun '(res, abs', st') => BPS abs' /\ grows st st' /\ from_cb cb res) (blocks_loop cb pkt c seq h abs st).
Notation X := (mkctx KMessage seq (Some h) na_unspec 0).
Hypothesis Ev1 : forall c, EV (EvStart c X).
Hypothesis Ev2 : forall c f, EV (EvEnd c X f).
Hypothesis Ev3 : forall c t, DP t -> EV (EvTlv c X t).
Hypothesis Ev4 : forall c f views, Forall (fun v => Forall DP (fst v)) views -> EV (EvBlock c X f views).

Lemma schedule_msgtlv_fit c tlvs st : Forall SP tlvs ->
  wp NF (fun '(res, tlvs', st') => Forall SP tlvs' /\ grows st st' /\ from_cb cb res) (schedule_msgtlv cb pkt c X tlvs st).
Proof.
  intros Ht. unfold schedule_msgtlv.
  destruct (if c_start c then _ else _) as [st1 res1] eqn:EC.
  apply start_fit in EC as [Q1 Q2]; [|eauto]. destruct (res1 =? OKAY).
  - eapply wp_mono; [apply (schedule_tlvblock_fit c X 0 SP DP); eauto|]. intros [[? ?] ?] (? & G & ?).
    split; auto. split; auto. exact (grows_trans _ _ _ Q1 G).
  - cbn. auto.
Qed.

Lemma end_cbs_fit ty l : forall res st res' st', end_cbs cb X ty l res st = (res', st') ->
  from_cb cb res -> grows st st' /\ from_cb cb res'.
Proof.
  induction l as [|c l IH]; intros res st res' st'; cbn [end_cbs].
  - intros [= <- <-]. split; auto. apply grows_refl.
  - destruct (_ && _ && _).
    + destruct (call cb st _) as [st2 a] eqn:ECa. intros E Hr.
      destruct (call_grows _ _ _ _ ECa) as (G & ?); [eauto|].
      apply IH in E; [|destruct (_ >? _); auto]. destruct E as [G2 ?]. split; auto. exact (grows_trans _ _ _ G G2).
    + apply IH.
Qed.

Lemma cons_loop_fit all rest : forall i grp o1 tlvs abs st, Forall SP tlvs -> BPS abs ->
  wp NF (fun '(res, grp', tlvs', abs', st') => Forall SP tlvs' /\ BPS abs' /\ grows st st' /\ from_cb cb res)
    (cons_loop cb pkt all seq h i rest grp o1 tlvs abs st).
Proof.
  induction rest as [|c rest IH]; intros i grp o1 tlvs abs st Ht Ha; cbn [cons_loop].
  - cbn. split; auto. split; auto. split; [apply grows_refl|]. left; auto.
  - destruct (c_handles _ _); cbn [negb]; [|apply IH; auto].
    destruct (match grp with Some (f, l) => _ | None => _ end) as [[res grp'] st1] eqn:EG.
    assert (grows st st1 /\ from_cb cb res) as [Q1 Q2].
    { assert (from_cb cb OKAY) by (left; auto). destruct grp as [[f l]|].
      - destruct (_ >? _).
        + destruct (schedule_end _ _ _ _ _ _ _ _) as [r2 st2] eqn:ES. injection EG as <- <- <-.
          unfold schedule_end in ES. apply end_cbs_fit in ES; auto.
        + injection EG as <- <- <-. split; auto. apply grows_refl.
      - injection EG as <- <- <-. split; auto. apply grows_refl. }
    destruct (res =? OKAY); cbn [negb]; [|cbn; auto].
    destruct (c_addrblock c).
    + eapply wp_bind; [unfold schedule_msgaddr; apply Hblocks; auto|]. intros [[res2 abs2] st2] (? & G & ?).
      apply grows_kind in G. pose proof (grows_trans _ _ _ Q1 G).
      destruct (res2 =? OKAY); cbn [negb]; [|cbn; auto].
      eapply wp_mono; [apply IH; auto|]. intros [[[[? ?] ?] ?] ?] (? & ? & G2 & ?). split; auto. split; auto. split; auto.
      eapply grows_trans; eauto.
    + eapply wp_bind; [apply schedule_msgtlv_fit; auto|]. intros [[res2 tlvs2] st2] (? & G & ?).
      pose proof (grows_trans _ _ _ Q1 G).
      destruct (res2 =? OKAY); cbn [negb]; [|cbn; auto].
      eapply wp_mono; [apply IH; auto|]. intros [[[[? ?] ?] ?] ?] (? & ? & G2 & ?). split; auto. split; auto. split; auto.
      eapply grows_trans; eauto.
Qed.

Lemma dispatch_message_fit all msg st : ms_hdr msg = h -> Forall SP (ms_tlvs msg) -> BPS (ms_addrs msg) ->
  wp NF (fun '(res, st') => grows st st' /\ from_cb cb res) (dispatch_message cb pkt all seq msg st).
Proof.
  intros Eh Ht Ha. unfold dispatch_message. rewrite Eh. eapply wp_bind; [apply cons_loop_fit; auto|].
  intros [[[[res grp] tlvs] abs] st2] (? & ? & G & ?). destruct grp as [[f l]|]; [|cbn; auto].
  destruct (schedule_end _ _ _ _ _ _ _ _) as [r2 st3] eqn:ES. unfold schedule_end in ES.
  apply end_cbs_fit in ES; auto. destruct ES as [G2 ?]. split; auto. apply grows_kind in G2. exact (grows_trans _ _ _ G G2).
Qed.
End MSG.
End G.
