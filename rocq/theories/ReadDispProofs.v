(** Safety and termination of the dispatching half of the RFC 5444 reader. *)
From Verif Require Import Base BitsModel BitsProofs BufLemmas NetaddrModel ReaderModel ReadDispModel ReaderSpec ReaderProofs.

Section D.
Context (cb : list event -> answer) (alloc : nat -> bool) (pkt : bytes).
Hypothesis B : all_bytes pkt.
Notation KF := (known_fault pkt).
Notation HI := (zlen pkt).

(** the result of a callback, or OKAY *)
Definition from_cb (r : Z) : Prop := r = OKAY \/ exists tr, a_res (cb tr) = r.

Definition st_ok (st : ds) : Prop := Forall (event_in 0 HI) (d_trace st).
Definition tl_ok (l : list tlv) : Prop := Forall (tlv_in 0 HI) l.
Definition cur_ok (v : list (nat * tlv) * option bytes) : Prop := Forall (fun p => tlv_delivered_in 0 HI (snd p)) (fst v).

Lemma call_ok st ev st' a : call cb st ev = (st', a) -> st_ok st -> event_in 0 HI ev ->
  st_ok st' /\ from_cb (a_res a) /\ d_trace st' = ev :: d_trace st.
Proof.
  unfold call. intros [= <- <-] H1 H2. split; [constructor; auto|]. split; auto. right. eauto.
Qed.

Lemma tlv_in_set_drop lo hi t i : tlv_in lo hi t -> tlv_in lo hi (t_set_drop t i).
Proof. intros [T1 T2 T3 T4 T5 T6]. constructor; auto. Qed.
Lemma tlv_in_set_single lo hi t v : t_multi t = true -> tlv_in lo hi t -> tlv_in lo hi (t_set_single t v).
Proof.
  intros E [T1 T2 T3 T4 T5 T6]. constructor; auto. cbn. intros H. destruct (T6 H) as (w & ? & ? & ? & ? & ?).
  exists w. repeat split; auto. congruence.
Qed.
Lemma delivered_single lo hi t : tlv_in lo hi t -> t_multi t = false -> tlv_delivered_in lo hi t.
Proof.
  intros [T1 T2 T3 T4 T5 T6] E H. destruct (T6 H) as (v & ? & ? & ? & ? & X). exists v. auto.
Qed.
Lemma index_match_range idx t : index_match idx t = true -> t_idx1 t <= idx <= t_idx2 t.
Proof. unfold index_match. destruct (zmem _ _); cbn; [discriminate|]. lia. Qed.
Lemma delivered_multi lo hi t idx : tlv_in lo hi t -> t_multi t = true -> index_match idx t = true ->
  tlv_delivered_in lo hi (t_set_single t (option_map (fun v => v + (idx - t_idx1 t) * t_length t) (t_value t))).
Proof.
  intros [T1 T2 T3 T4 T5 T6] E IM H. apply index_match_range in IM. cbn [t_length t_set_single] in H.
  destruct (T6 H) as (v & Ev & ? & ? & X & _). cbn [t_single t_set_single]. rewrite Ev. cbn.
  exists (v + (idx - t_idx1 t) * t_length t). split; auto. specialize (X ltac:(lia)).
  unfold t_count in X. rewrite E in X. unfold is_u8 in *. split; nia.
Qed.

Lemma copy_value_wp e t : tlv_delivered_in 0 HI t -> wp KF (fun _ => True) (copy_value pkt e t).
Proof.
  intros D. unfold copy_value. destruct (ce_copy e); cbn [andb]; [|exact I].
  destruct (Z.gtb_spec (t_length t) 0); [|exact I].
  destruct (D ltac:(lia)) as (v & -> & V0 & V1).
  destruct (copy_out_Some pkt v (Z.to_nat (if t_length t <? ce_max e then t_length t else ce_max e))) as (b & -> & _).
  - lia.
  - destruct (Z.ltb_spec (t_length t) (ce_max e)); lia.
  - exact I.
Qed.

Record sl_ok (s : sl) : Prop := {
  so_done : tl_ok (sl_done s);
  so_tlvs : tl_ok (sl_tlvs s);
  so_cur : cur_ok (sl_cur s);
  so_views : Forall cur_ok (sl_views s);
  so_st : st_ok (sl_st s)
}.
Definition sl_measure (s : sl) : nat := (length (sl_tlvs s) + length (sl_ents s))%nat.

Lemma sched_match_wp e t pos im cur failed : cur_ok cur -> (im = true -> exists t', t = Some t' /\ tlv_delivered_in 0 HI t') ->
  wp KF (fun r => cur_ok (snd r)) (sched_match pkt e t pos im cur failed).
Proof.
  intros Hc Ht. unfold sched_match. destruct im; [|exact Hc].
  destruct (Ht eq_refl) as (t' & -> & D). destruct (fst cur) eqn:E.
  - eapply wp_bind; [apply copy_value_wp; auto|]. intros v _. cbn. repeat constructor. auto.
  - cbn. unfold cur_ok in *. cbn [fst] in *. rewrite E in Hc. apply (Forall_app _ (_ :: _)). split; auto.
Qed.

Lemma sched_step_wp c x idx s : sl_ok s -> (sl_tlvs s <> [] \/ sl_ents s <> []) ->
  wp KF (fun '(res, s') => sl_ok s' /\ from_cb res /\ (res = OKAY -> (sl_measure s' < sl_measure s)%nat) /\
                           (length (sl_done s') + length (sl_tlvs s') = length (sl_done s) + length (sl_tlvs s))%nat)
    (sched_step cb pkt c x idx s).
Proof.
  intros [S1 S2 S3 S4 S5] NE. unfold sched_step, sl_measure.
  destruct (sl_tlvs s) as [|t r] eqn:ET.
  - (* no TLV left *)
    destruct (sl_ents s) as [|e er] eqn:EE; [destruct NE; congruence|].
    cbn -[wp]. unfold sched_match. cbn -[wp].
    cbn. split; [constructor; cbn; auto; constructor|]. split; [left; auto|]. cbn. split; lia.
  - inversion S2 as [|? ? Ht Hr]; subst.
    set (im := index_match idx t).
    set (t1 := if im && t_multi t then _ else t).
    assert (tlv_in 0 HI t1) as Ht1.
    { unfold t1. destruct im; cbn [andb]; auto. destruct (t_multi t) eqn:EM; auto. apply tlv_in_set_single; auto. }
    assert (im = true -> tlv_delivered_in 0 HI t1) as Hd1.
    { unfold t1, im. intros EI. rewrite EI. cbn [andb]. destruct (t_multi t) eqn:EM.
      - apply delivered_multi; auto.
      - apply delivered_single; auto. }
    assert (forall o, cmp_types (Some t1) o = cmp_types (Some t) o) as Hcmp.
    { intros o. unfold t1. destruct (im && t_multi t); auto. }
    set (m0 := match sl_ents s with [] => false | e :: _ => im && (cmp_types (Some t) (Some e) =? 0) end).
    assert (m0 = true -> im = true /\ sl_ents s <> []) as Hm0.
    { unfold m0. destruct (sl_ents s); [discriminate|]. intros E. apply andb_prop in E. split; [tauto|discriminate]. }
    destruct (if im && c_tlv c then _ else _) as [[[res tlvs] ism] st] eqn:EC.
    assert (exists t2, tlvs = t2 :: r /\ tlv_in 0 HI t2 /\ st_ok st /\ from_cb res /\
              (ism = true -> im = true /\ sl_ents s <> []) /\ (im = true -> tlv_delivered_in 0 HI t2) /\
              (forall o, cmp_types (Some t2) o = cmp_types (Some t) o)) as (t2 & -> & Ht2 & Hst & Hres & Him & Hd2 & Hc2).
    { destruct (im && c_tlv c) eqn:EB.
      - destruct (call cb (sl_st s) (EvTlv (c_id c) x t1)) as [st' a] eqn:ECa.
        apply andb_prop in EB as [EB _].
        destruct (call_ok _ _ _ _ ECa S5 (Hd1 EB)) as (? & ? & _).
        destruct (a_res a =? DROP_TLV); injection EC as <- <- <- <-.
        + exists (t_set_drop t1 idx). split; auto. split; [apply tlv_in_set_drop; auto|]. split; auto.
          split; [left; auto|]. split; [discriminate|]. split; [exact Hd1|]. intros o. rewrite <- Hcmp. reflexivity.
        + exists t1. auto 12.
      - injection EC as <- <- <- <-. exists t1. assert (from_cb OKAY) by (left; auto). auto 12. }
    clear EC. destruct (Z.eqb_spec res OKAY) as [->|NR]; cbn [negb].
    2:{ cbn. split; [constructor; cbn; auto; constructor; auto|]. split; [auto|]. split; [congruence|lia]. }
    cbn [hd_error].
    set (d := cmp_types (Some t2) (hd_error (sl_ents s))) in *.
    apply (wp_bind _ (fun '(failed, cur) => cur_ok cur)).
    { destruct (Z.geb_spec d 0) as [Hd|Hd]; [|exact S3].
      destruct (sl_ents s) as [|e er] eqn:EE.
      - exfalso. unfold d in Hd. cbn in Hd. lia.
      - eapply wp_mono; [apply sched_match_wp; auto|].
        + intros EI. exists t2. split; auto. apply Hd2, Him, EI.
        + now intros [? ?]. }
    intros [failed cur] Hcur.
    destruct (Z.leb_spec d 0) as [Hd|Hd].
    + destruct (Z.gtb_spec (cmp_types (hd_error r) (hd_error (sl_ents s))) 0) as [G|G].
      * destruct (sl_ents s) as [|e er] eqn:EE.
        { exfalso. destruct r; cbn in G; lia. }
        cbn. split; [constructor; cbn; auto; constructor; auto|]. split; [left; auto|]. split; intros; lia.
      * cbn. split; [constructor; cbn; auto; constructor; auto|]. split; [left; auto|]. split; intros; lia.
    + cbn [hd_error]. fold d. destruct (Z.gtb_spec d 0) as [G|G]; [|lia].
      destruct (sl_ents s) as [|e er] eqn:EE; [exfalso; unfold d in G; cbn in G; lia|].
      cbn. split; [constructor; cbn; auto; constructor; auto|]. split; [left; auto|]. split; intros; lia.
Qed.

Lemma sched_loop_wp c x idx fuel : forall s, sl_ok s -> (sl_measure s <= fuel)%nat ->
  wp KF (fun '(res, s') => sl_ok s' /\ from_cb res /\
                           (length (sl_done s') + length (sl_tlvs s') = length (sl_done s) + length (sl_tlvs s))%nat)
    (sched_loop cb pkt fuel c x idx s).
Proof.
  induction fuel as [|fuel IH]; intros s Hs Hf; cbn [sched_loop].
  - unfold sl_measure in Hf. destruct (sl_tlvs s) eqn:E1, (sl_ents s) eqn:E2; cbn in Hf; try lia. cbn.
    split; auto. split; [left; auto|]. rewrite E1. cbn. lia.
  - destruct (match sl_tlvs s with [] => match sl_ents s with [] => true | _ => false end | _ => false end) eqn:EE.
    + destruct (sl_tlvs s) eqn:E1, (sl_ents s) eqn:E2; try discriminate. cbn. split; auto. split; [left; auto|].
      rewrite E1. cbn. lia.
    + assert (wp KF (fun '(res, s') => sl_ok s' /\ from_cb res /\
                           (length (sl_done s') + length (sl_tlvs s') = length (sl_done s) + length (sl_tlvs s))%nat)
        (do '(res, s0) <- sched_step cb pkt c x idx s;
         if negb (res =? OKAY) then Ok (res, s0) else sched_loop cb pkt fuel c x idx s0)) as X.
      { eapply wp_bind; [apply sched_step_wp; auto|].
        { destruct (sl_tlvs s), (sl_ents s); try discriminate; [right|left|left]; discriminate. }
        intros [res s'] (H1 & H2 & H3 & H4). destruct (Z.eqb_spec res OKAY) as [->|]; cbn [negb]; [|cbn; auto].
        specialize (H3 eq_refl). eapply wp_mono; [apply IH; auto; lia|]. intros [res2 s2] (? & ? & ?).
        split; auto. split; auto. lia. }
      destruct (sl_tlvs s), (sl_ents s); try discriminate; exact X.
Qed.

Lemma set_nth_Forall {A} (Q : A -> Prop) l n y : Forall Q l -> Q y -> Forall Q (set_nth l n y).
Proof. intros. now apply Forall_set_nth. Qed.

Lemma mark_drops_ok idx views : forall drops tlvs, tl_ok tlvs -> tl_ok (mark_drops idx views drops tlvs) /\
  length (mark_drops idx views drops tlvs) = length tlvs.
Proof.
  induction views as [|v views IH]; intros [|dr drops] tlvs H; cbn [mark_drops]; auto.
  set (tl' := match fst v with [] => tlvs | _ => _ end).
  assert (tl_ok tl' /\ length tl' = length tlvs) as [A1 A2].
  { unfold tl'. destruct (fst v) as [|[p q] ?]; auto. destruct dr; auto.
    destruct (nth_error tlvs p) eqn:E; auto. split; [|apply set_nth_length].
    apply set_nth_Forall; auto. apply tlv_in_set_drop. apply nth_error_In in E.
    unfold tl_ok in H. rewrite Forall_forall in H. auto. }
  destruct (IH drops tl' A1) as [B1 B2]. split; auto. congruence.
Qed.

Lemma schedule_tlvblock_wp c x tlvs idx st : tl_ok tlvs -> st_ok st ->
  wp KF (fun '(res, tlvs', st') => tl_ok tlvs' /\ length tlvs' = length tlvs /\ st_ok st' /\ from_cb res)
    (schedule_tlvblock cb pkt c x tlvs idx st).
Proof.
  intros Ht Hs. unfold schedule_tlvblock.
  eapply wp_bind; [apply sched_loop_wp|].
  { constructor; cbn; auto; constructor. }
  { unfold sl_measure. cbn. lia. }
  intros [res s] ([S1 S2 S3 S4 S5] & Hres & HL). cbn [sl_done sl_tlvs length] in HL.
  assert (tl_ok (rev (sl_done s) ++ sl_tlvs s)) as HT.
  { apply Forall_app. split; auto. apply Forall_rev. auto. }
  assert (length (rev (sl_done s) ++ sl_tlvs s) = length tlvs) as HLL.
  { rewrite app_length, rev_length. lia. }
  destruct (Z.eqb_spec res OKAY); cbn [negb]; [|cbn; auto].
  assert (Forall (fun v => Forall (tlv_delivered_in 0 HI) (fst v)) (views_of (rev (sl_views s)))) as HV.
  { unfold views_of. rewrite Forall_map. apply Forall_rev. eapply Forall_impl; [|exact S4].
    intros v Hv. cbn. rewrite Forall_map. exact Hv. }
  destruct (if c_block c && negb (sl_failed s) then _ else _) as [[st' res'] drops] eqn:EC.
  assert (st_ok st' /\ from_cb res') as [Q1 Q2].
  { destruct (c_block c && negb (sl_failed s)).
    - destruct (call cb (sl_st s) _) as [st2 a] eqn:ECa. injection EC as <- <- <-.
      destruct (call_ok _ _ _ _ ECa S5) as (? & ? & _); auto.
    - destruct (c_failed c && sl_failed s).
      + destruct (call cb (sl_st s) _) as [st2 a] eqn:ECa. injection EC as <- <- <-.
        destruct (call_ok _ _ _ _ ECa S5) as (? & ? & _); auto.
      + injection EC as <- <- <-. split; auto. left; auto. }
  destruct (res' =? DROP_TLV).
  - cbn. destruct (mark_drops_ok idx (rev (sl_views s)) drops _ HT) as [M1 M2].
    split; auto. split; [congruence|]. split; auto. left; auto.
  - cbn. auto.
Qed.

Lemma schedule_msgtlv_wp c x tlvs st : tl_ok tlvs -> st_ok st ->
  wp KF (fun '(res, tlvs', st') => tl_ok tlvs' /\ length tlvs' = length tlvs /\ st_ok st' /\ from_cb res)
    (schedule_msgtlv cb pkt c x tlvs st).
Proof.
  intros Ht Hs. unfold schedule_msgtlv.
  destruct (if c_start c then _ else _) as [st' res] eqn:EC.
  assert (st_ok st' /\ from_cb res) as [Q1 Q2].
  { destruct (c_start c).
    - destruct (call cb _ _) as [st2 a] eqn:ECa. injection EC as <- <-.
      destruct (call_ok _ _ _ _ ECa Hs) as (? & ? & _); [exact I|auto].
    - injection EC as <- <-. split; auto. left; auto. }
  destruct (res =? OKAY); [apply schedule_tlvblock_wp; auto|]. cbn. auto.
Qed.

Definition ab_inv (a : ablock) : Prop := ablock_in 0 HI a.

Lemma assemble_addr_wp al ab i : ab_inv ab -> 0 <= i < ab_num ab -> 1 <= al <= 16 ->
  wp KF (fun '(addr, na) => zlen addr = 16 /\ all_bytes addr) (assemble_addr pkt al ab i).
Proof.
  intros [I1 I2 I3 I4 I5 [I6 I6'] I7] Hi Hal. unfold assemble_addr.
  destruct (copy_out_Some pkt (ab_mid_src ab + ab_mid_len ab * i) (Z.to_nat (ab_mid_len ab))) as (mid & Em & Lm & _); [nia|nia|].
  rewrite Em. pose proof (copy_out_Forall _ _ _ _ _ B Em) as Bm.
  destruct (copy_in (ab_addr ab) (ab_mid_start ab) mid) as [addr|] eqn:EA.
  - assert (zlen addr = 16 /\ all_bytes addr) as [La Ba].
    { destruct mid as [|y mid].
      - cbn in EA. injection EA as <-. auto.
      - destruct (copy_in_bound _ _ _ _ EA ltac:(discriminate)).
        destruct (copy_in_ok (ab_addr ab) (y :: mid) (ab_mid_start ab) I6 I6' Bm ltac:(lia) ltac:(lia)) as (b & Eb & ? & ?).
        rewrite EA in Eb. injection Eb as <-. auto. }
    apply (wp_bind _ (fun _ => True)).
    { destruct (ab_prefixes ab) as [p|]; [|exact I]. specialize (I5 p eq_refl).
      destruct (zget_Some pkt (p + i) ltac:(lia)) as [v ->]. exact I. }
    intros plen _. destruct (from_binary_prefix_ok (firstn (Z.to_nat al) addr) 0 plen) as (r & a & ->).
    { unfold zlen in *. rewrite firstn_length. lia. }
    cbn. auto.
  - cbn. destruct (Z.le_gt_cases (ab_mid_start ab + ab_mid_len ab) 16); [|lia]. exfalso.
    destruct (copy_in_Some mid (ab_addr ab) (ab_mid_start ab)) as (? & E & _); [lia|lia|]. congruence.
Qed.

Lemma ab_upd_inv ab addr tlvs drop : ab_inv ab -> zlen addr = 16 -> all_bytes addr -> tl_ok tlvs ->
  ab_inv (ab_upd ab addr tlvs drop).
Proof. intros [I1 I2 I3 I4 I5 I6 I7] ? ? ?. constructor; cbn; auto. Qed.

Lemma addr_loop_wp c seq h is_ : forall ab st, ab_inv ab -> st_ok st -> 1 <= mh_addr_len h <= 16 ->
  Forall (fun i => 0 <= i < ab_num ab) is_ ->
  wp KF (fun '(res, ab', st') => ab_inv ab' /\ ab_num ab' = ab_num ab /\ st_ok st' /\ from_cb res)
    (addr_loop cb pkt c seq h is_ ab st).
Proof.
  induction is_ as [|i is_ IH]; intros ab st Hab Hst Hal His; cbn [addr_loop].
  - cbn. split; auto. split; auto. split; auto. left; auto.
  - inversion His as [|? ? Hi His']; subst. destruct (zmem i (ab_drop ab)); [apply IH; auto|].
    eapply wp_bind; [apply assemble_addr_wp; auto|]. intros [addr na] [La Ba].
    destruct (if c_start c then _ else _) as [st1 res1] eqn:EC.
    assert (st_ok st1 /\ from_cb res1) as [Q1 Q2].
    { destruct (c_start c).
      - destruct (call cb _ _) as [st2 a] eqn:ECa. injection EC as <- <-.
        destruct (call_ok _ _ _ _ ECa Hst) as (? & ? & _); [exact I|auto].
      - injection EC as <- <-. split; auto. left; auto. }
    clear EC. apply (wp_bind _ (fun '(res, tlvs', st') => tl_ok tlvs' /\ st_ok st' /\ from_cb res)).
    { destruct (res1 =? OKAY).
      - eapply wp_mono; [apply schedule_tlvblock_wp; auto; apply (ai_tlvs _ _ _ Hab)|].
        intros [[? ?] ?] (? & ? & ? & ?). auto.
      - cbn. split; auto. apply (ai_tlvs _ _ _ Hab). }
    intros [[res2 tlvs] st2] (T1 & T2 & T3).
    destruct (if c_end c then _ else _) as [st3 res3] eqn:EC3.
    assert (st_ok st3 /\ from_cb res3) as [Q3 Q4].
    { destruct (c_end c).
      - destruct (call cb _ _) as [st4 a] eqn:ECa. injection EC3 as <- <-.
        destruct (call_ok _ _ _ _ ECa T2) as (? & ? & _); [exact I|]. split; auto. destruct (_ >? _); auto.
      - injection EC3 as <- <-. auto. }
    destruct (res3 =? DROP_ADDRESS).
    + eapply wp_mono; [apply IH; auto; apply ab_upd_inv; auto|]. intros [[? ?] ?] (? & ? & ? & ?). auto.
    + destruct (res3 =? OKAY); cbn [negb].
      * eapply wp_mono; [apply IH; auto; apply ab_upd_inv; auto|]. intros [[? ?] ?] (? & ? & ? & ?). auto.
      * cbn. split; [apply ab_upd_inv; auto|auto].
Qed.

Lemma blocks_loop_wp c seq h abs : forall st, Forall ab_inv abs -> st_ok st -> 1 <= mh_addr_len h <= 16 ->
  wp KF (fun '(res, abs', st') => Forall ab_inv abs' /\ st_ok st' /\ from_cb res) (blocks_loop cb pkt c seq h abs st).
Proof.
  induction abs as [|ab abs IH]; intros st Ha Hst Hal; cbn [blocks_loop].
  - cbn. split; auto. split; auto. left; auto.
  - inversion Ha as [|? ? Hab Habs]; subst.
    eapply wp_bind; [apply addr_loop_wp; auto|].
    { apply Forall_forall. intros i Hi. apply zrange_In in Hi. lia. }
    intros [[res ab'] st1] (A1 & A2 & A3 & A4). destruct (res =? OKAY); cbn [negb].
    + eapply wp_bind; [apply IH; auto|]. intros [[res2 abs'] st2] (? & ? & ?). cbn. auto.
    + cbn. auto.
Qed.

Lemma end_cbs_ok x ty l : forall res st res' st', end_cbs cb x ty l res st = (res', st') ->
  st_ok st -> from_cb res -> st_ok st' /\ from_cb res'.
Proof.
  induction l as [|c l IH]; intros res st res' st'; cbn [end_cbs].
  - intros [= <- <-]. auto.
  - destruct (_ && _ && _).
    + destruct (call cb st _) as [st2 a] eqn:ECa. intros E Hs Hr.
      destruct (call_ok _ _ _ _ ECa Hs) as (? & ? & _); [exact I|].
      apply IH in E; auto. destruct (_ >? _); auto.
    + apply IH.
Qed.

Lemma cons_loop_wp all seq h rest : forall i grp o1 tlvs abs st,
  tl_ok tlvs -> Forall ab_inv abs -> st_ok st -> 1 <= mh_addr_len h <= 16 ->
  wp KF (fun '(res, grp', tlvs', abs', st') => tl_ok tlvs' /\ Forall ab_inv abs' /\ st_ok st' /\ from_cb res)
    (cons_loop cb pkt all seq h i rest grp o1 tlvs abs st).
Proof.
  induction rest as [|c rest IH]; intros i grp o1 tlvs abs st Ht Ha Hs Hal; cbn [cons_loop].
  - cbn. split; auto. split; auto. split; auto. left; auto.
  - destruct (c_handles _ _); cbn [negb]; [|apply IH; auto].
    set (x := mkctx _ _ _ _ _).
    destruct (match grp with Some (f, l) => _ | None => _ end) as [[res grp'] st1] eqn:EG.
    assert (st_ok st1 /\ from_cb res) as [Q1 Q2].
    { destruct grp as [[f l]|].
      - destruct (_ >? _).
        + destruct (schedule_end _ _ _ _ _ _ _ _) as [r2 st2] eqn:ES. injection EG as <- <- <-.
          unfold schedule_end in ES. apply end_cbs_ok in ES; auto. left; auto.
        + injection EG as <- <- <-. split; auto. left; auto.
      - injection EG as <- <- <-. split; auto. left; auto. }
    destruct (res =? OKAY); cbn [negb]; [|cbn; auto].
    destruct (c_addrblock c).
    + eapply wp_bind; [apply blocks_loop_wp; auto|]. intros [[res2 abs2] st2] (? & ? & ?).
      destruct (res2 =? OKAY); cbn [negb]; [apply IH; auto|cbn; auto].
    + eapply wp_bind; [apply schedule_msgtlv_wp; auto|]. intros [[res2 tlvs2] st2] (? & ? & ? & ?).
      destruct (res2 =? OKAY); cbn [negb]; [apply IH; auto|cbn; auto].
Qed.

Lemma dispatch_message_wp all seq msg st : tl_ok (ms_tlvs msg) -> Forall ab_inv (ms_addrs msg) -> st_ok st ->
  1 <= mh_addr_len (ms_hdr msg) <= 16 ->
  wp KF (fun '(res, st') => st_ok st' /\ from_cb res) (dispatch_message cb pkt all seq msg st).
Proof.
  intros. unfold dispatch_message. eapply wp_bind; [apply cons_loop_wp; auto|].
  intros [[[[res grp] tlvs] abs] st2] (? & ? & ? & ?). destruct grp as [[f l]|]; [|cbn; auto].
  destruct (schedule_end _ _ _ _ _ _ _ _) as [r2 st3] eqn:ES. unfold schedule_end in ES.
  apply end_cbs_ok in ES; auto.
Qed.

Context (fwd : bool).

Lemma handle_message_wp all seq start eob st m : 0 <= start <= eob -> eob <= HI -> st_ok st ->
  wp KF (fun '(res, p, st', m') => st_ok st' /\ m_tlv m' = m_tlv m /\ m_addr m' = m_addr m /\
      (from_cb res \/ res < 0) /\ (res = OKAY \/ res < 0 \/ res = DROP_PACKET) /\
      (res = OKAY -> exists size, p = start + size /\ 6 <= size /\ p <= eob /\ size_field pkt start size))
    (handle_message cb pkt alloc fwd all seq start eob st m).
Proof.
  intros H0 H1 Hst. unfold handle_message.
  eapply wp_bind; [apply parse_message_wp; auto|]. intros [[e msg] m'] (E & Es & Ma & Mt & Hok).
  cbn zeta in *.
  apply (wp_bind _ (fun '(res, st') => st_ok st' /\ (e = OKAY -> from_cb res) /\ (e <> OKAY -> res = e))).
  { destruct (Z.eqb_spec e OKAY) as [->|N].
    - destruct (Hok eq_refl) as (S1 & S2 & S3 & S4 & S5 & S6).
      eapply wp_mono; [apply dispatch_message_wp; auto|].
      + eapply Forall_impl; [|exact S5]. intros t [? _]. eapply tlv_in_mono; [| |eassumption]; lia.
      + eapply Forall_impl; [|exact S6]. intros a [? _]. eapply ablock_in_mono; [| |eassumption]; lia.
      + intros [res st'] [? ?]. split; auto. split; auto. intros; exfalso; auto.
    - cbn. split; auto. split; auto. intros; exfalso; auto. }
  intros [res st1] (Hst1 & Hr1 & Hr2).
  set (st2 := if _ && _ && _ && _ then _ else st1).
  assert (st_ok st2) as Hst2.
  { unfold st2. destruct ((res =? OKAY) || (res =? DROP_MSG_BUT_FORWARD)) eqn:ER; cbn [andb]; auto.
    destruct (negb (d_dnf st1)); cbn [andb]; auto. destruct fwd; cbn [andb]; auto.
    destruct (match mh_hoplimit (ms_hdr msg) with Some hl => hl >? 1 | None => false end); auto.
    destruct (call cb (set_kind st1 KMessage) _) as [st3 a] eqn:ECa. cbn [fst].
    destruct (call_ok _ _ _ _ ECa Hst1) as (? & _ & _); auto. cbn.
    assert (e = OKAY) as He.
    { destruct (Z.eqb_spec e OKAY); auto. rewrite (Hr2 n) in ER. unfold OKAY, DROP_MSG_BUT_FORWARD in *. lia. }
    destruct (Hok He) as (S1 & S2 & _). lia. }
  cbn. unfold OKAY, DROP_PACKET in *.
  split; auto. split; [lia|]. split; [lia|].
  destruct (Z.eq_dec e 0) as [He|He].
  - destruct (Hok He) as (S1 & S2 & S3 & _).
    split; [left|split].
    + destruct ((res >? 0) && negb (res =? 5)); [left; reflexivity|exact (Hr1 He)].
    + destruct (Z.gtb_spec res 0), (Z.eqb_spec res 5); cbn; lia.
    + intros _. exists (mh_size (ms_hdr msg)). auto.
  - specialize (Hr2 He). subst res.
    destruct (Z.gtb_spec e 0); [lia|]. cbn. split; [right; lia|]. split; [lia|]. intros; lia.
Qed.

Lemma message_loop_wp all seq eob fuel : forall ptr st m, 0 <= ptr <= eob -> eob <= HI -> st_ok st ->
  eob - ptr < Z.of_nat fuel ->
  wp KF (fun '(res, st', m') => st_ok st' /\ m_tlv m' = m_tlv m /\ m_addr m' = m_addr m /\
      (from_cb res \/ res < 0) /\ (res = OKAY -> exists l, partitioned pkt ptr eob l))
    (message_loop cb pkt alloc fwd fuel all seq ptr eob st m).
Proof.
  induction fuel as [|fuel IH]; intros ptr st m H0 H1 Hst Hf; cbn [message_loop].
  - destruct (Z.leb_spec eob ptr); [|lia]. cbn. split; auto. split; auto. split; auto. split; [left; left; auto|].
    intros _. exists []. replace eob with ptr by lia. constructor.
  - destruct (Z.leb_spec eob ptr).
    { cbn. split; auto. split; auto. split; auto. split; [left; left; auto|].
      intros _. exists []. replace eob with ptr by lia. constructor. }
    eapply wp_bind; [apply handle_message_wp; auto|]. intros [[[res p] st1] m1] (A1 & A2 & A3 & A4 & A5 & A6).
    destruct (Z.eqb_spec res OKAY) as [->|N]; cbn [negb].
    + destruct (A6 eq_refl) as (size & -> & S1 & S2 & (h & l & G1 & G2 & G3)).
      eapply wp_mono; [apply IH; auto; lia|].
      intros [[res2 st2] m2] (C1 & C2 & C3 & C4 & C5). split; auto. split; [lia|]. split; [lia|]. split; auto.
      intros HR. destruct (C5 HR) as [L HL]. exists ((ptr, size) :: L). econstructor; eauto.
    + cbn. split; auto. split; auto. split; auto. split; auto. intros; exfalso; auto.
Qed.

Lemma pkt_loop_wp rest seq ht : forall tlvs n st, tl_ok tlvs -> st_ok st ->
  wp KF (fun '(res, tlvs', n', st') => length tlvs' = length tlvs /\ st_ok st' /\ from_cb res)
    (pkt_loop cb pkt rest seq ht tlvs n st).
Proof.
  induction rest as [|c rest IH]; intros tlvs n st Ht Hst; cbn [pkt_loop].
  - cbn. split; auto. split; auto. left; auto.
  - destruct (if c_start c then _ else _) as [st1 res] eqn:EC.
    assert (st_ok st1 /\ from_cb res) as [Q1 Q2].
    { destruct (c_start c).
      - destruct (call cb _ _) as [st2 a] eqn:ECa. injection EC as <- <-.
        destruct (call_ok _ _ _ _ ECa Hst) as (? & ? & _); [exact I|auto].
      - injection EC as <- <-. split; auto. left; auto. }
    destruct (res =? OKAY); cbn [negb]; [|cbn; auto].
    destruct (ht && (c_tlv c || c_block c)); [|apply IH; auto].
    eapply wp_bind; [apply schedule_tlvblock_wp; auto|]. intros [[res2 tlvs2] st2] (C1 & C2 & C3 & C4).
    destruct (res2 =? OKAY); cbn [negb]; [|cbn; auto].
    eapply wp_mono; [apply IH; auto|]. intros [[[? ?] ?] ?] (? & ? & ?). split; [congruence|auto].
Qed.

Lemma pkt_end_ok l seq res : forall st, st_ok st -> st_ok (pkt_end cb l seq res st).
Proof.
  induction l as [|c l IH]; intros st H; cbn [pkt_end]; auto.
  destruct (c_end c); auto. apply IH. destruct (call cb st _) as [st2 a] eqn:ECa. cbn [fst].
  destruct (call_ok _ _ _ _ ECa H) as (? & _ & _); auto. exact I.
Qed.

Lemma handle_packet_wp pcons mcons m :
  wp KF (fun '(res, tr, m') => Forall (event_in 0 HI) tr /\ m_tlv m' = m_tlv m /\ m_addr m' = m_addr m /\
      (res = OKAY -> (forall t, a_res (cb t) <> DROP_PACKET) ->
         exists start l, 1 <= start <= zlen pkt /\ partitioned pkt start (zlen pkt) l))
    (handle_packet cb pkt alloc fwd pcons mcons m).
Proof.
  unfold handle_packet. pose proof (zlen_nonneg pkt) as HL.
  destruct (Z.gtb_spec (zlen pkt) 65535).
  { cbn. unfold E_TOO_LARGE, OKAY. repeat split; auto; lia. }
  eapply wp_bind; [apply get_u8_adv; auto; unfold OKAY; lia|].
  intros [[first p1] e1] (Uf & (A1 & A2 & A3) & A4).
  destruct (negb _). { cbn. unfold E_VERSION, OKAY. repeat split; auto; lia. }
  apply (wp_bind _ (fun '(s, p, e) => adv p1 HI e1 p e)).
  { destruct (flag _ 8).
    - eapply wp_bind; [apply get_u16_adv; auto; lia|]. intros [[? ?] ?] (? & ?). cbn. auto.
    - cbn. unfold adv. repeat split; auto; lia. }
  intros [[seq p2] e2] (B1 & B2 & B3).
  destruct (Z.eqb_spec e2 OKAY) as [->|N]; cbn [negb].
  2:{ cbn. repeat split; auto. intros; exfalso; auto. }
  specialize (A4 (B3 eq_refl)).
  apply (wp_bind _ (fun '(e, p, l, m') => m_addr m' = m_addr m /\ m_tlv m' = m_tlv m + zlen l /\ tl_ok l /\
     (e = OKAY -> p2 <= p <= HI) /\ (e <> OKAY -> l = []))).
  { destruct (flag _ 4).
    - eapply wp_mono; [apply (parse_tlvblock_wp _ _ B 0); unfold is_u8; lia|].
      intros [[[e p] l] m'] (S1 & S2 & S3 & S4 & S5 & S6). split; auto. split; auto. split.
      + eapply Forall_impl; [|exact S4]. intros t [? _]. auto.
      + split; [intros HH; specialize (S5 HH); lia|auto].
    - cbn. unfold zlen at 1. cbn [length]. repeat split; auto; try lia. constructor. }
  intros [[[e p3] tlvs] m1] (C1 & C2 & C3 & C4 & C5).
  destruct (Z.eqb_spec e OKAY) as [->|N]; cbn [negb].
  2:{ specialize (C5 N). subst tlvs. unfold zlen in C2 at 1. cbn [length] in C2. cbn.
      split; [constructor|]. split; [lia|]. split; [auto|]. intros; exfalso; auto. }
  specialize (C4 eq_refl).
  eapply wp_bind; [apply pkt_loop_wp; auto; constructor|].
  intros [[[res tlvs'] n] st] (D1 & D2 & D3).
  apply (wp_bind _ (fun '(res', st', m') => st_ok st' /\ m_tlv m' = m_tlv m1 /\ m_addr m' = m_addr m1 /\
     (from_cb res' \/ res' < 0) /\ (res' = OKAY -> exists l, partitioned pkt p3 HI l))).
  { destruct (Z.eqb_spec res OKAY) as [->|NR].
    - apply message_loop_wp; auto; try lia. unfold zlen in *. lia.
    - cbn. split; auto. split; auto. split; auto. split; auto. intros; exfalso; auto. }
  intros [[res' st'] m'] (E1 & E2 & E3 & E4 & E5).
  cbn. split; [apply pkt_end_ok; auto|]. split; [unfold zlen in *; lia|]. split; [lia|].
  intros HR Hnd. unfold OKAY, DROP_PACKET in *. destruct (Z.eqb_spec res' 5) as [->|].
  - exfalso. destruct E4 as [[E4|[tr E4]]|E4]; [discriminate|exact (Hnd tr E4)|lia].
  - destruct (E5 HR) as [l Hl]. exists p3, l. split; auto. lia.
Qed.
End D.
