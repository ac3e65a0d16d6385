(** Consumers are shown what the packet says (WireSpec.v). *)
From Verif Require Import Base BitsModel BitsProofs BufLemmas SplitLemmas NetaddrModel ReaderModel ReadDispModel ReaderSpec ReaderProofs ReadDispProofs
  ReadTlvProofs WireSpec WireParse WireDispatch.

(** a parsed TLV, whatever was dropped or prepared already *)
Record stored (pkt : bytes) (n : Z) (w : wtlv) (t : tlv) : Prop := {
  so_type : t_type t = w_type w;
  so_ext : t_ext t = match w_ext w with Some x => x | None => 0 end;
  so_i1 : t_idx1 t = first_index w;
  so_i2 : t_idx2 t = if n =? 0 then 255 else last_index n w;
  so_len : t_length t = zlen (value_bytes w) / values n w;
  so_val : value_bytes w <> [] -> exists off, t_value t = Some off /\ holds pkt off (value_bytes w) /\
           t_multi t = (w_multi w && negb (values n w =? 1)) /\
           (t_multi t = false -> t_single t = Some off)
}.
Definition stored_of (pkt : bytes) (n : Z) (ws : list wtlv) (t : tlv) : Prop := exists w, In w ws /\ wf_tlv n w /\ stored pkt n w t.

Lemma decodes_stored pkt n w t : decodes pkt n w t -> stored pkt n w t.
Proof. intros [D1 D2 D3 D4 D5 D6 D7]. constructor; auto. Qed.
Lemma stored_drop pkt n ws t i : stored_of pkt n ws t -> stored_of pkt n ws (t_set_drop t i).
Proof. intros (w & H1 & H2 & [D1 D2 D3 D4 D5 D6]). exists w. split; auto. split; auto. constructor; auto. Qed.

Lemma values_one n w : wf_tlv n w -> 1 <= values n w /\ zlen (value_bytes w) mod (values n w) = 0.
Proof.
  intros (_ & _ & _ & _ & H). unfold values in *. destruct (Z.eqb_spec n 0).
  - destruct H as [_ ->]. split; [lia|apply Z.mod_1_r].
  - destruct (w_multi w); split; try lia; tauto.
Qed.

Lemma value_at_len n w i : wf_tlv n w -> concerns n w i -> zlen (value_at n w i) = zlen (value_bytes w) / values n w.
Proof.
  intros W C. destruct (values_one _ _ W) as [V1 V2]. unfold value_at. destruct W as (_ & _ & _ & _ & W).
  destruct (w_multi w) eqn:M.
  - unfold values in *. rewrite M in *. destruct (Z.eqb_spec n 0); [destruct W; discriminate|]. destruct C as [C|C]; [lia|].
    set (c := last_index n w - first_index w + 1) in *. set (k := zlen (value_bytes w) / c).
    assert (zlen (value_bytes w) = c * k) as E.
    { unfold k. rewrite (Z.div_mod (zlen (value_bytes w)) c) at 1 by lia. lia. }
    assert (0 <= k) by (apply Z.div_pos; [apply zlen_nonneg|lia]).
    assert ((i - first_index w) * k + k <= c * k) by (unfold c; nia).
    assert (0 <= (i - first_index w) * k) by nia.
    rewrite <- E in *. unfold zlen in *. rewrite firstn_length, skipn_length. lia.
  - unfold values. rewrite M. now rewrite Z.div_1_r.
Qed.

Lemma stored_shown pkt n ws i t : stored_of pkt n ws t -> index_match i t = true ->
  stored_of pkt n ws (shown i t) /\ shows_one_of pkt n i ws (shown i t).
Proof.
  intros (w & H1 & H2 & S) IM. apply index_match_range in IM. split.
  - exists w. split; auto. split; auto. unfold shown. destruct (t_multi t) eqn:M; auto.
    destruct S as [D1 D2 D3 D4 D5 D6]. constructor; auto.
    intros N. destruct (D6 N) as (off & A1 & A2 & A3 & A4). exists off. cbn. rewrite M in *. repeat split; auto. discriminate.
  - exists w. split; auto. destruct S as [D1 D2 D3 D4 D5 D6]. 
    assert (concerns n w i) as C.
    { unfold concerns. rewrite D3, D4 in IM. destruct (Z.eqb_spec n 0); [auto|right; auto]. }
    unfold shows. pose proof (value_at_len n w i H2 C) as L.
    assert (t_type (shown i t) = t_type t /\ t_ext (shown i t) = t_ext t /\ t_length (shown i t) = t_length t) as (-> & -> & ->).
    { unfold shown. destruct (t_multi t); auto. }
    split; auto. split; auto. split; auto. split; [lia|]. intros NE.
    assert (value_bytes w <> []) as NV.
    { intros E. apply NE. unfold value_at. rewrite E. now rewrite skipn_nil, firstn_nil; destruct (w_multi w). }
    destruct (D6 NV) as (off & A1 & A2 & A3 & A4). destruct (values_one _ _ H2) as [V1 V2].
    destruct (t_multi t) eqn:M; unfold shown; rewrite M.
    + symmetry in A3. apply andb_prop in A3 as [M1 M2].
      exists (off + (i - t_idx1 t) * t_length t). cbn. rewrite A1. split; [reflexivity|].
      unfold value_at. rewrite M1. rewrite D3, D5.
      destruct H2 as (_ & _ & _ & _ & W). destruct (Z.eqb_spec n 0); [destruct W; congruence|]. rewrite D3, D4 in IM.
      set (k := zlen (value_bytes w) / values n w) in *.
      assert (zlen (value_bytes w) = values n w * k) as E.
      { unfold k. rewrite (Z.div_mod (zlen (value_bytes w)) (values n w)) at 1 by lia. lia. }
      assert (0 <= k) by (apply Z.div_pos; [apply zlen_nonneg|lia]).
      assert (0 <= (i - first_index w) * k) by nia.
      assert ((i - first_index w) * k <= zlen (value_bytes w)).
      { rewrite E. unfold values. rewrite M1. nia. }
      pose proof (holds_slice pkt off (value_bytes w) ((i - first_index w) * k) (Z.to_nat k) A2 ltac:(lia)) as HS.
      rewrite Z.min_l in HS by lia. exact HS.
    + exists off. split; [auto|].
      assert (value_at n w i = value_bytes w) as ->; [|auto].
      unfold value_at. destruct (w_multi w) eqn:M1; auto. cbn in A3. destruct (Z.eqb_spec (values n w) 1) as [EV|]; [|discriminate].
      rewrite EV, Z.div_1_r.
      assert (i - first_index w = 0) as ->.
      { unfold values in EV. rewrite M1 in EV. destruct H2 as (_ & _ & _ & _ & W).
        destruct (Z.eqb_spec n 0); [destruct W; congruence|]. rewrite D3, D4 in IM. lia. }
      cbn. replace (Z.to_nat (zlen (value_bytes w))) with (length (value_bytes w)) by (unfold zlen; lia). apply firstn_all.
Qed.

Lemma shows_drop pkt n i ws t j : shows_one_of pkt n i ws t -> shows_one_of pkt n i ws (t_set_drop t j).
Proof. intros (w & H1 & H2). exists w. split; auto. Qed.
Lemma shows_in pkt n i ws t : shows_one_of pkt n i ws t -> tlv_delivered_in 0 (zlen pkt) t.
Proof.
  intros (w & H1 & H2 & H3 & H4 & H5 & H6) L. rewrite H5 in L.
  destruct H6 as (off & E & H). { intros E. rewrite E in L. change (zlen (@nil Z)) with 0 in L. lia. }
  exists off. apply holds_bound in H. split; auto. rewrite H5. lia.
Qed.

Lemma insert_all_Forall (P : tlv -> Prop) ts : forall acc, Forall P ts -> Forall P acc -> Forall P (insert_all ts acc).
Proof.
  induction ts as [|t ts IH]; intros acc H1 H2; cbn; auto. inversion H1; subst. apply IH; auto. apply tlv_insert_Forall; auto.
Qed.
Lemma decoded_stored pkt n ws ts : Forall (wf_tlv n) ws -> Forall2 (decodes pkt n) ws ts -> Forall (stored_of pkt n ws) (insert_all ts []).
Proof.
  intros W D. apply insert_all_Forall; [|constructor].
  assert (forall ws', incl ws ws' -> Forall (stored_of pkt n ws') ts) as X; [|apply X, incl_refl].
  induction D as [|w t ws ts D _ IH]; intros ws' I; constructor.
  - inversion W; subst. exists w. split; [apply I; left; auto|]. split; auto. now apply decodes_stored.
  - inversion W; subst. apply IH; auto. intros y Hy. apply I. right; auto.
Qed.

Section R.
Context (cb : list event -> answer) (alloc : nat -> bool) (pkt : bytes) (fwd : bool).
Hypothesis A : forall n, alloc n = true.
Notation NF := (fun _ : rfault => False).

Section Msg.
Context (seq : option Z) (start : Z) (M : wmsg) (h : mhdr).
Hypothesis W : wf_msg M.
Hypothesis HM : holds pkt start (enc_msg M).
Hypothesis HH : header_of M h.
Let EV (e : event) : Prop := event_fits pkt (in_message seq start M) e /\ forward_fits pkt M e.

Definition block_ok (off : Z) (b : wblock) (ab : ablock) : Prop :=
  decodes_addrs pkt (wm_addrlen M) off b ab /\ Forall (stored_of pkt (wb_num b) (wb_tlvs b)) (ab_tlvs ab).
Fixpoint blocks_ok (off : Z) (bs : list wblock) (abs : list ablock) : Prop :=
  match bs, abs with
  | [], [] => True
  | b :: bs', ab :: abs' => block_ok off b ab /\ blocks_ok (off + zlen (enc_block b)) bs' abs'
  | _, _ => False
  end.
Lemma decoded_blocks_ok bs : Forall (wf_block (wm_addrlen M)) bs -> forall off abs,
  decodes_blocks pkt (wm_addrlen M) off bs abs -> blocks_ok off bs abs.
Proof.
  intros F. induction F as [|b bs Hb _ IH]; intros off [|ab abs]; cbn; auto. intros (D1 & D2 & (ts & D3 & D4) & D5).
  split; auto. split; auto. rewrite D4. apply decoded_stored; auto. apply Hb.
Qed.

Lemma block_event_fit c off b before after ab st : wm_blocks M = before ++ b :: after ->
  off = start + msg_size M - zlen (flat_map enc_block (b :: after)) -> block_ok off b ab ->
  wp NF (fun '(res, ab', st') => block_ok off b ab' /\ grows EV st st' /\ from_cb cb res)
    (addr_loop cb pkt c seq h (zrange 0 (Z.to_nat (ab_num ab))) ab st).
Proof.
  intros EB EO HB.
  assert (wf_block (wm_addrlen M) b) as Wb.
  { destruct W as (_ & _ & _ & _ & _ & _ & _ & F & _). rewrite Forall_forall in F. apply F. rewrite EB. apply in_elt. }
  apply (block_fit cb pkt EV seq h (block_ok off b) (wb_num b) (fun i x => in_message seq start M x (wb_num b) i (wb_tlvs b))
     (stored_of pkt (wb_num b) (wb_tlvs b)) (fun i => shows_one_of pkt (wb_num b) i (wb_tlvs b))).
  - intros; now apply stored_drop.
  - intros; now apply stored_shown.
  - intros; now apply shows_drop.
  - intros; eapply shows_in; eauto.
  - intros ab' [D _]. apply (da_num _ _ _ _ _ D).
  - intros ab' [_ D]. exact D.
  - intros ab' i [D1 D2] Hi. destruct HH as (_ & _ & EA & _). rewrite EA.
    destruct (assemble_decodes pkt (wm_addrlen M) off b ab' i Wb) as (addr & a & p & r & na & -> & R1 & R2 & R3 & R4); auto.
    { apply W. }
    cbn. split.
    + split; [reflexivity|]. split; [exists h; auto|]. right. split; [reflexivity|].
      exists before, b, after, a, p, r. split; auto. cbn [x_block mkactx]. rewrite (da_ptr _ _ _ _ _ D1), EO. auto 10.
    + intros tlvs drop F. split; auto.
  - intros c0 x i P. split; [cbn; eauto|exact I].
  - intros c0 x i f P. split; [cbn; eauto|exact I].
  - intros c0 x i t P D. split; [cbn; eauto 8|exact I].
  - intros c0 x i f views P D. split; [cbn; eauto 8|exact I].
  - exact HB.
Qed.

Lemma blocks_event_fit c bs : forall before off abs st, wm_blocks M = before ++ bs ->
  off = start + msg_size M - zlen (flat_map enc_block bs) -> blocks_ok off bs abs ->
  wp NF (fun '(res, abs', st') => blocks_ok off bs abs' /\ grows EV st st' /\ from_cb cb res) (blocks_loop cb pkt c seq h abs st).
Proof.
  induction bs as [|b bs IH]; intros before off [|ab abs] st EB EO; cbn [blocks_ok blocks_loop]; try tauto.
  - intros _. cbn. split; auto. split; [apply grows_refl|left; auto].
  - intros [H1 H2]. eapply wp_bind; [apply (block_event_fit c off b before bs); auto|].
    intros [[res ab'] st1] (A1 & A2 & A3). destruct (res =? OKAY); cbn [negb].
    + eapply wp_bind; [apply (IH (before ++ [b]) (off + zlen (enc_block b))); auto|].
      * rewrite <- app_assoc. exact EB.
      * rewrite EO. cbn [flat_map]. rewrite zlen_app. lia.
      * intros [[res2 abs'] st2] (? & G & ?). cbn. split; auto. split; auto. exact (grows_trans _ _ _ _ A2 G).
    + cbn. auto.
Qed.
End Msg.

Lemma handle_message_fit seq start M all eob st m : wf_msg M -> holds pkt start (enc_msg M) -> start + msg_size M <= eob ->
  exists res st' m', handle_message cb pkt alloc fwd all seq start eob st m = Ok (res, start + msg_size M, st', m') /\
    grows (fun e => event_fits pkt (in_message seq start M) e /\ forward_fits pkt M e) st st' /\
    (res = OKAY \/ from_cb cb res) /\ (res = OKAY \/ res < 0 \/ res = DROP_PACKET).
Proof.
  intros W HM L. unfold handle_message.
  destruct (parse_message_decodes alloc pkt A M start eob m W HM L) as (msg & m1 & -> & HH & ES & (ts & D1 & D2) & DB).
  cbn [obind]. change (OKAY =? OKAY) with true. cbn iota.
  set (EV := fun e => event_fits pkt (in_message seq start M) e /\ forward_fits pkt M e).
  set (X := mkctx KMessage seq (Some (ms_hdr msg)) na_unspec 0).
  assert (in_message seq start M X 0 0 (wm_tlvs M)) as HX.
  { split; [reflexivity|]. split; [exists (ms_hdr msg); auto|]. left. auto. }
  pose proof (dispatch_message_fit cb pkt EV seq (ms_hdr msg) (stored_of pkt 0 (wm_tlvs M)) (shows_one_of pkt 0 0 (wm_tlvs M))
     (blocks_ok M (start + msg_size M - zlen (flat_map enc_block (wm_blocks M))) (wm_blocks M))) as DF.
  specialize (DF ltac:(intros; now apply stored_drop) ltac:(intros; now apply stored_shown) ltac:(intros; now apply shows_drop)
    ltac:(intros; eapply shows_in; eauto)).
  specialize (DF ltac:(intros; apply (blocks_event_fit seq start M (ms_hdr msg) W HH c (wm_blocks M) []); auto)).
  specialize (DF ltac:(intros; split; [cbn; eauto|exact I]) ltac:(intros; split; [cbn; eauto|exact I])).
  specialize (DF ltac:(intros; split; [cbn; eauto 8|exact I]) ltac:(intros; split; [cbn; eauto 8|exact I])).
  specialize (DF all msg (reset_dnf st) eq_refl).
  assert (Forall (stored_of pkt 0 (wm_tlvs M)) (ms_tlvs msg)) as F1.
  { rewrite D2. apply decoded_stored; auto. apply W. }
  specialize (DF F1 (decoded_blocks_ok M _ ltac:(apply W) _ _ DB)).
  destruct (dispatch_message cb pkt all seq msg (reset_dnf st)) as [[res st1]|f]; [|contradiction].
  cbn [wp] in DF. destruct DF as [G FC]. cbn [obind].
  pose proof HH as (_ & _ & _ & HS & _). rewrite HS.
  do 3 eexists. split; [reflexivity|]. split; [|split].
  - apply grows_dnf in G. destruct (_ && _ && _ && _); auto.
    eapply grows_trans; [exact G|]. apply (grows_kind _ _ KMessage).
    destruct (call cb (set_kind st1 KMessage) _) as [st3 a] eqn:ECa. cbn [fst].
    eapply call_grows; eauto. split; [cbn; eauto|]. cbn. split; auto. symmetry. apply zlen_enc_msg.
  - destruct ((res >? OKAY) && negb (res =? DROP_PACKET)); auto.
  - unfold OKAY, DROP_PACKET. destruct (Z.gtb_spec res 0), (Z.eqb_spec res 5); cbn; lia.
Qed.

Definition msg_event (seq : option Z) (start0 : Z) (Ms : list wmsg) (e : event) : Prop :=
  exists before M after, Ms = before ++ M :: after /\
    event_fits pkt (in_message seq (start0 + zlen (flat_map enc_msg before)) M) e /\ forward_fits pkt M e.

Lemma enc_msg_pos M : 4 <= zlen (enc_msg M).
Proof. rewrite zlen_enc_msg. unfold msg_size. pose proof (zlen_nonneg (enc_msg_rest M)). lia. Qed.

Lemma message_loop_fit seq all eob Ms : Forall wf_msg Ms -> forall fuel ptr st m,
  holds pkt ptr (flat_map enc_msg Ms) -> ptr + zlen (flat_map enc_msg Ms) = eob -> zlen (flat_map enc_msg Ms) < Z.of_nat fuel ->
  exists res st' m', message_loop cb pkt alloc fwd fuel all seq ptr eob st m = Ok (res, st', m') /\
    grows (msg_event seq ptr Ms) st st' /\ (res = OKAY \/ from_cb cb res) /\ (res = OKAY \/ res < 0 \/ res = DROP_PACKET).
Proof.
  intros F. induction F as [|M Ms HM _ IH]; intros fuel ptr st m H E L; cbn [flat_map] in *.
  - change (zlen (@nil Z)) with 0 in *. exists OKAY, st, m.
    split; [destruct fuel; cbn [message_loop]; (destruct (Z.leb_spec eob ptr); [reflexivity|lia])|].
    split; [apply grows_refl|]. auto.
  - rewrite zlen_app in *. pose proof (enc_msg_pos M) as X1. pose proof (zlen_nonneg (flat_map enc_msg Ms)) as X2.
    destruct fuel as [|fuel]; [lia|]. cbn [message_loop]. destruct (Z.leb_spec eob ptr); [lia|].
    apply holds_app in H as [H1 H2]. rewrite zlen_enc_msg in *.
    destruct (handle_message_fit seq ptr M all eob st m HM H1 ltac:(lia)) as (res & st1 & m1 & -> & G & R1 & R2). cbn [obind].
    assert (grows (msg_event seq ptr (M :: Ms)) st st1) as G1.
    { destruct G as (new & E1 & F1). exists new. split; auto. eapply Forall_impl; [|exact F1]. cbn. intros e He.
      exists [], M, Ms. cbn [flat_map]. change (zlen (@nil Z)) with 0. rewrite Z.add_0_r. auto. }
    destruct (Z.eqb_spec res OKAY) as [->|N]; cbn [negb].
    + destruct (IH fuel (ptr + msg_size M) st1 m1 H2 ltac:(lia) ltac:(lia)) as (res2 & st2 & m2 & -> & G2 & R3 & R4).
      exists res2, st2, m2. split; auto. split; auto. eapply grows_trans; [exact G1|].
      destruct G2 as (new & E1 & F1). exists new. split; auto. eapply Forall_impl; [|exact F1]. cbn.
      intros e (before & M' & after & -> & He & Hf). exists (M :: before), M', after. split; auto. cbn [flat_map].
      rewrite zlen_app, zlen_enc_msg, Z.add_assoc. auto.
    + eauto 10.
Qed.

Lemma pkt_loop_fit p ht rest : forall tlvs n st, Forall (stored_of pkt 0 (match wp_tlvs p with Some l => l | None => [] end)) tlvs ->
  exists res tlvs' n' st', pkt_loop cb pkt rest (wp_seqno p) ht tlvs n st = Ok (res, tlvs', n', st') /\
    grows (event_fits pkt (in_packet p)) st st' /\ from_cb cb res.
Proof.
  set (ws := match wp_tlvs p with Some l => l | None => [] end).
  induction rest as [|c rest IH]; intros tlvs n st Ht; cbn [pkt_loop].
  - do 4 eexists. split; [reflexivity|]. split; [apply grows_refl|left; auto].
  - set (x := mkctx KPacket (wp_seqno p) None na_unspec 0).
    assert (in_packet p x 0 0 ws) as HX by (repeat split; auto).
    destruct (if c_start c then _ else _) as [st1 res] eqn:EC.
    apply (start_fit cb (event_fits pkt (in_packet p))) in EC as [Q1 Q2]; [|cbn; eauto].
    destruct (res =? OKAY); cbn [negb]; [|eauto 10].
    destruct (ht && (c_tlv c || c_block c)).
    + pose proof (schedule_tlvblock_fit cb pkt (event_fits pkt (in_packet p)) c x 0 (stored_of pkt 0 ws) (shows_one_of pkt 0 0 ws)) as SF.
      specialize (SF ltac:(intros; now apply stored_drop) ltac:(intros; now apply stored_shown) ltac:(intros; now apply shows_drop)
        ltac:(intros; eapply shows_in; eauto)).
      specialize (SF ltac:(intros; cbn; eauto 8) ltac:(intros; cbn; eauto 8) tlvs st1 Ht).
      destruct (schedule_tlvblock _ _ _ _ _ _ _) as [[[res2 tlvs2] st2]|f]; [|contradiction]. cbn [wp] in SF. destruct SF as (T1 & T2 & T3).
      cbn [obind]. pose proof (grows_trans _ _ _ _ Q1 T2) as G. destruct (res2 =? OKAY); cbn [negb]; [|eauto 10].
      destruct (IH tlvs2 (S n) st2 T1) as (r & t' & n' & st' & -> & G2 & R). do 4 eexists. split; [reflexivity|].
      split; auto. exact (grows_trans _ _ _ _ G G2).
    + destruct (IH tlvs (S n) st1 Ht) as (r & t' & n' & st' & -> & G2 & R). do 4 eexists. split; [reflexivity|].
      split; auto. exact (grows_trans _ _ _ _ Q1 G2).
Qed.

Lemma pkt_end_fit p res l : forall st, grows (event_fits pkt (in_packet p)) st (pkt_end cb l (wp_seqno p) res st).
Proof.
  induction l as [|c l IH]; intros st; cbn [pkt_end]; [apply grows_refl|].
  destruct (c_end c); auto. eapply grows_trans; [|apply IH].
  destruct (call cb st _) as [st2 a] eqn:ECa. cbn [fst]. eapply call_grows; eauto. cbn. do 3 eexists. repeat split; auto.
Qed.
End R.

Lemma pkt_flags_tests p : let f := has (wp_seqno p) 0x08 + has (wp_tlvs p) 0x04 in
  Z.shiftr f 4 = 0 /\ flag (Z.land f 0x0f) 0x08 = (match wp_seqno p with Some _ => true | None => false end) /\
  flag (Z.land f 0x0f) 0x04 = (match wp_tlvs p with Some _ => true | None => false end).
Proof. destruct (wp_seqno p), (wp_tlvs p); cbn; auto. Qed.

Theorem handle_packet_fit cb alloc fwd p pcons mcons m : (forall n, alloc n = true) -> wf_pkt p ->
  let pkt := enc_pkt p in
  let start := zlen pkt - zlen (flat_map enc_msg (wp_msgs p)) in
  exists res tr m', handle_packet cb pkt alloc fwd pcons mcons m = Ok (res, tr, m') /\
    Forall (fun e => event_fits pkt (in_packet p) e \/ msg_event pkt (wp_seqno p) start (wp_msgs p) e) tr /\
    (res = OKAY \/ from_cb cb res).
Proof.
  intros A (W1 & W2 & W3 & W4) pkt start. unfold handle_packet.
  destruct (pkt_flags_tests p) as (F0 & F1 & F2).
  assert (holds pkt 0 (enc_pkt p)) as H by (exists [], []; split; [unfold pkt; now rewrite app_nil_r|reflexivity]).
  unfold enc_pkt in H. cbn [app] in H. set (fl := has (wp_seqno p) 8 + has (wp_tlvs p) 4) in *.
  assert (zlen pkt = 1 + zlen (match wp_seqno p with Some s => be16 s | None => [] end)
            + zlen (match wp_tlvs p with Some ws => enc_tlvs ws | None => [] end) + zlen (flat_map enc_msg (wp_msgs p))) as LP.
  { unfold pkt, enc_pkt. rewrite !zlen_app. change (zlen [_]) with 1. lia. }
  fold pkt in W4.
  pose proof (zlen_nonneg (match wp_seqno p with Some s => be16 s | None => [] end)) as L1.
  pose proof (zlen_nonneg (match wp_tlvs p with Some ws => enc_tlvs ws | None => [] end)) as L2.
  pose proof (zlen_nonneg (flat_map enc_msg (wp_msgs p))) as L3.
  destruct (Z.gtb_spec (zlen pkt) 65535); [lia|].
  destruct (get_u8_holds _ _ (zlen pkt) _ _ H ltac:(lia)) as [-> H1]. cbn [obind].
  rewrite F0. cbn [Z.eqb negb]. rewrite F1, F2. change (0 + 1) with 1 in *.
  apply holds_app in H1 as [H1 H2].
  match goal with |- context [obind ?X _] =>
    assert (X = Ok (wp_seqno p, 1 + zlen (match wp_seqno p with Some s => be16 s | None => [] end), OKAY)) as -> end.
  { destruct (wp_seqno p) as [s|].
    - rewrite be16_len in *. replace (be16 s) with (be16 s ++ []) in H1 by apply app_nil_r.
      destruct (get_u16_holds _ _ (zlen pkt) _ _ H1 ltac:(lia) (W1 s eq_refl)) as [-> _]. reflexivity.
    - reflexivity. }
  cbn [obind]. change (negb (OKAY =? OKAY)) with false. cbn iota.
  set (p1 := 1 + zlen _) in *. apply holds_app in H2 as [H2 H3].
  match goal with |- context [obind ?X _] =>
    assert (exists l m', X = Ok (OKAY, p1 + zlen (match wp_tlvs p with Some ws => enc_tlvs ws | None => [] end), l, m') /\
      Forall (stored_of pkt 0 (match wp_tlvs p with Some ws => ws | None => [] end)) l) as (l & m1 & -> & HL) end.
  { destruct (wp_tlvs p) as [ws|].
    - destruct (parse_tlvblock_decodes alloc pkt A 0 (zlen pkt) ws p1 m ltac:(lia) (W2 ws eq_refl)) as (ts & m' & -> & D & _); auto.
      { unfold enc_tlvs in L2, LP. rewrite zlen_app, be16_len in *. lia. }
      { lia. }
      do 2 eexists. split; [reflexivity|]. apply decoded_stored; auto.
    - change (zlen (@nil Z)) with 0. rewrite Z.add_0_r. do 2 eexists. split; [reflexivity|constructor]. }
  cbn [obind]. change (negb (OKAY =? OKAY)) with false. cbn iota.
  set (p2 := p1 + zlen _) in *.
  match goal with |- context [pkt_loop cb pkt pcons (wp_seqno p) ?ht] => 
    destruct (pkt_loop_fit cb pkt p ht pcons l O ds0 HL) as (res & tl' & n & st1 & -> & G1 & R1) end.
  cbn [obind].
  assert (start = p2) as ES by (unfold start; lia).
  match goal with |- context [obind ?X _] =>
    assert (exists res' st' m', X = Ok (res', st', m') /\ grows (msg_event pkt (wp_seqno p) start (wp_msgs p)) st1 st' /\ (res' = OKAY \/ from_cb cb res'))
      as (res' & st2 & m2 & -> & G2 & R2) end.
  { destruct (Z.eqb_spec res OKAY).
    - rewrite ES. destruct (message_loop_fit cb alloc pkt fwd A (wp_seqno p) mcons (zlen pkt) (wp_msgs p) W3 (S (length pkt)) p2 st1 m1 H3)
        as (r & s & m' & -> & G & R & _).
      + lia.
      + unfold zlen in *. lia.
      + eauto 10.
    - do 3 eexists. split; [reflexivity|]. split; [apply grows_refl|auto]. }
  cbn [obind]. do 3 eexists. split; [reflexivity|]. split.
  - destruct (pkt_end_fit cb pkt p res' (rev (firstn n pcons)) st2) as (n3 & E3 & F3).
    destruct G2 as (n2 & E2 & F2'). destruct G1 as (n1 & E1 & F1'). cbn in E1. rewrite app_nil_r in E1.
    rewrite E3, E2, E1. rewrite !Forall_app. split; [|split].
    + eapply Forall_impl; [|exact F3]. auto.
    + eapply Forall_impl; [|exact F2']. auto.
    + eapply Forall_impl; [|exact F1']. auto.
  - destruct (res' =? DROP_PACKET); auto.
Qed.
