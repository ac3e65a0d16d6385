(** The packets of a target: messages are sent once, in order, in well-formed
    packets of the allowed size. *)
From Verif Require Import Base BitsModel BufLemmas SplitLemmas WriterModel ReaderModel ReadDispModel WireSpec WireParse WriterSpec WriterProofs.

(** ** The forwarded copy *)
Lemma flag_test f b : (Z.land f b =? 0) = negb (flag f b).
Proof. unfold flag. now rewrite negb_involutive. Qed.

Lemma fwd_offsets_of m : wf_msg m ->
  let p := 4 + match wm_orig m with Some a => zlen a | None => 0 end in
  fwd_offsets (msg_flags m + (wm_addrlen m - 1)) =
    (match wm_hoplimit m with Some _ => Some p | None => None end,
     match wm_hopcount m with Some _ => Some (p + match wm_hoplimit m with Some _ => 1 | None => 0 end) | None => None end).
Proof.
  intros (_ & Hal & Ho & _). destruct (msg_flags_tests m Hal) as (A & _ & B & C & D & _). cbv zeta.
  unfold fwd_offsets. rewrite !flag_test, A, B, C, D.
  destruct (wm_orig m) as [a|].
  - destruct (Ho a eq_refl) as [_ ->]. destruct (wm_hoplimit m), (wm_hopcount m); cbn [negb]; rewrite ?Z.add_0_r; reflexivity.
  - destruct (wm_hoplimit m), (wm_hopcount m); cbn [negb]; rewrite ?Z.add_0_r; reflexivity.
Qed.

Definition orig_bytes (m : wmsg) : bytes := match wm_orig m with Some a => a | None => [] end.
Definition msg_tail (m : wmsg) : bytes :=
  match wm_seqno m with Some s => be16 s | None => [] end ++ enc_tlvs (wm_tlvs m) ++ flat_map enc_block (wm_blocks m).
Lemma enc_msg_parts m : enc_msg m =
  [wm_type m; msg_flags m + (wm_addrlen m - 1)] ++ be16 (msg_size m) ++ orig_bytes m ++ opt1 (wm_hoplimit m) ++ opt1 (wm_hopcount m) ++ msg_tail m.
Proof. reflexivity. Qed.
Lemma msg_size_parts m : msg_size m = 4 + zlen (orig_bytes m) + zlen (opt1 (wm_hoplimit m)) + zlen (opt1 (wm_hopcount m)) + zlen (msg_tail m).
Proof. unfold msg_size, enc_msg_rest, orig_bytes, msg_tail. rewrite !zlen_app. lia. Qed.
Lemma next_hop_size m : msg_size (next_hop m) = msg_size m.
Proof.
  rewrite !msg_size_parts. unfold orig_bytes, msg_tail. unfold next_hop. cbn [wm_orig wm_hoplimit wm_hopcount wm_seqno wm_tlvs wm_blocks].
  destruct (wm_hoplimit m), (wm_hopcount m); reflexivity.
Qed.
Lemma orig_len m : zlen (orig_bytes m) = match wm_orig m with Some a => zlen a | None => 0 end.
Proof. unfold orig_bytes. destruct (wm_orig m); reflexivity. Qed.

Lemma forward_bytes_next m : wf_msg m -> may_travel m = true -> forward_bytes (enc_msg m) = Some (enc_msg (next_hop m)).
Proof.
  intros W T. unfold forward_bytes.
  assert (zget (enc_msg m) 1 = Some (msg_flags m + (wm_addrlen m - 1))) as -> by (rewrite enc_msg_parts; reflexivity).
  rewrite (fwd_offsets_of m W). rewrite zlen_enc_msg.
  destruct W as (_ & _ & _ & Whl & Whc & _ & _ & _ & Wsz).
  assert (0 <= msg_size m) by (rewrite <- zlen_enc_msg; apply zlen_nonneg).
  rewrite be16_u8 by (unfold is_u16; lia).
  rewrite (enc_msg_parts m) at 1. rewrite (copy_in_split (be16 (msg_size m)) [wm_type m; msg_flags m + (wm_addrlen m - 1)] (be16 (msg_size m))); [|reflexivity|reflexivity].
  rewrite enc_msg_parts, next_hop_size.
  assert (msg_flags (next_hop m) = msg_flags m) as -> by (unfold msg_flags, next_hop; cbn; destruct (wm_hoplimit m), (wm_hopcount m); reflexivity).
  change (orig_bytes (next_hop m)) with (orig_bytes m). change (msg_tail (next_hop m)) with (msg_tail m).
  change (wm_type (next_hop m)) with (wm_type m). change (wm_addrlen (next_hop m)) with (wm_addrlen m).
  rewrite <- (orig_len m). unfold next_hop. cbn [wm_hoplimit wm_hopcount].
  set (h := [wm_type m; msg_flags m + (wm_addrlen m - 1)] ++ be16 (msg_size m) ++ orig_bytes m).
  assert (zlen h = 4 + zlen (orig_bytes m)) as Lh by (unfold h; rewrite !zlen_app, be16_zlen; change (zlen [_; _]) with 2; lia).
  replace ([wm_type m; msg_flags m + (wm_addrlen m - 1)] ++ be16 (msg_size m) ++ orig_bytes m ++ opt1 (wm_hoplimit m) ++ opt1 (wm_hopcount m) ++ msg_tail m)
    with (h ++ opt1 (wm_hoplimit m) ++ opt1 (wm_hopcount m) ++ msg_tail m) by (unfold h; now rewrite <- !app_assoc).
  match goal with |- _ = Some ?X => replace X with
    (h ++ opt1 (match wm_hoplimit m with Some h0 => Some (h0 - 1) | None => None end)
       ++ opt1 (match wm_hopcount m with Some h0 => Some ((h0 + 1) mod 256) | None => None end) ++ msg_tail m) by (unfold h; now rewrite <- !app_assoc) end.
  unfold may_travel in T.
  destruct (wm_hoplimit m) as [hl|] eqn:Ehl.
  - pose proof (Whl hl eq_refl) as Rl. unfold is_u8 in Rl. apply Z.leb_le in T.
    cbn [opt1 app zupd]. rewrite zget_split by lia. rewrite zset_split by lia. rewrite (u8_id (hl - 1)) by (unfold is_u8; lia).
    destruct (wm_hopcount m) as [hc|]; cbn [opt1 app zupd]; [|reflexivity].
    replace (h ++ hl - 1 :: hc :: msg_tail m) with ((h ++ [hl - 1]) ++ hc :: msg_tail m) by now rewrite <- app_assoc.
    rewrite zget_split, zset_split by (rewrite zlen_app; change (zlen [_]) with 1; lia). rewrite <- app_assoc. reflexivity.
  - cbn [opt1 app zupd]. destruct (wm_hopcount m) as [hc|]; cbn [opt1 app zupd]; [|reflexivity].
    rewrite zget_split, zset_split by lia. reflexivity.
Qed.
Lemma next_hop_wf m : wf_msg m -> may_travel m = true -> wf_msg (next_hop m).
Proof.
  intros (W1 & W2 & W3 & W4 & W5 & W6 & W7 & W8 & W9) T. unfold wf_msg. rewrite next_hop_size.
  unfold next_hop. cbn [wm_type wm_addrlen wm_orig wm_hoplimit wm_hopcount wm_seqno wm_tlvs wm_blocks].
  split; auto. split; auto. split; auto. split; [|split; [|auto]].
  - intros h E. destruct (wm_hoplimit m) as [x|] eqn:Ex; [|discriminate]. injection E as <-. pose proof (W4 x eq_refl).
    unfold may_travel in T. rewrite Ex in T. apply Z.leb_le in T. unfold is_u8 in *. lia.
  - intros h E. destruct (wm_hopcount m) as [x|]; [|discriminate]. injection E as <-. unfold is_u8. pose proof (Z.mod_pos_bound (x + 1) 256). lia.
Qed.

(** ** Well-formed TLVs *)
Lemma accepted_wf ops : forall rs, Forall op_ok ops -> zlen (enc_all (accepted ops rs)) < 65536 -> Forall (wf_tlv 0) (accepted ops rs).
Proof.
  induction ops as [|o ops IH]; intros [|r rs] F L; cbn [accepted] in *; auto.
  inversion F as [|? ? Fo F']; subst. rewrite enc_all_app, zlen_app in L.
  pose proof (zlen_nonneg (enc_all (accepted ops rs))). 
  match type of L with zlen (enc_all ?X) + _ < _ => pose proof (zlen_nonneg (enc_all X)) end.
  apply Forall_app. split; [|apply IH; auto; lia].
  destruct (r =? 0); [|constructor].
  assert (forall t x v, op_ok (TAdd t x v) -> zlen (enc_all [tlv_of t x v]) < 65536 -> Forall (wf_tlv 0) [tlv_of t x v]) as K.
  { intros t x v (A & B & C & _) D. constructor; [|constructor]. rewrite enc_all_one in D. pose proof (enc_len_value t x v).
    assert (value_bytes (tlv_of t x v) = v) as EV by (destruct v; reflexivity).
    unfold wf_tlv. rewrite EV. cbn [tlv_of w_type w_ext w_index w_long w_multi]. split; auto. split.
    { intros y E. destruct (x =? 0); [discriminate|]. injection E as <-. auto. }
    split; auto. split; [|cbn; auto]. destruct (Z.ltb_spec 255 (zlen v)); lia. }
  destruct o as [t x v|h l|t x v]; [| constructor |]; apply K; auto; lia.
Qed.

(** the calls take at most their size *)
Lemma run_total ops : forall d rs d', tw_ok d -> Forall op_ok ops -> tw_run d ops = Some (rs, d') ->
  tw_added d' + tw_allocated d' <= tw_added d + tw_allocated d + sum (map op_size ops) /\
  (Forall (fun o => is_alloc o = false) ops -> tw_allocated d' = tw_allocated d).
Proof.
  induction ops as [|o ops IH]; intros d rs d' I F E; cbn [tw_run] in E.
  - injection E as <- <-. cbn. split; [lia|auto].
  - inversion F as [|? ? Fo F']; subst. pose proof (op_size_pos o Fo) as P.
    destruct (tw_step_ok d o I Fo) as (r & d1 & E1 & I1 & _ & C). rewrite E1 in E.
    destruct (tw_run d1 ops) as [[rs1 d2]|] eqn:E2; [|discriminate]. injection E as <- <-.
    destruct (IH d1 rs1 d2 I1 F' E2) as [A B]. cbn [map sum fold_right]. unfold sum in A.
    destruct C as [(_ & _ & C1 & C2 & C3 & _)|(_ & _ & ->)].
    + split; [destruct o; lia|]. intros N. inversion N as [|? ? No N']; subst. rewrite (B N').
      destruct o; [lia|discriminate|lia].
    + split; [lia|]. intros N. inversion N; subst. auto.
Qed.

(** ** The session *)
Section Session.
Variable c : pktcfg.
Hypothesis CO : cfg_ok c.

Definition good (p : wpkt) : Prop := wf_pkt p /\ zlen (enc_pkt p) <= pc_size c.

(** an open packet with the messages [ms] *)
Definition open_ok (s : tstate) (ms : list wmsg) : Prop :=
  exists ws, let t := ts_target s in let d := tg_pkt t in
    layout t ws (flat_map enc_msg ms) /\ tg_seqno t = pc_seqno c (zlen (ts_sent s)) /\ tw_max d = pc_size c /\
    zlen (tw_buf d) = pc_size c /\ tw_header d + tw_added d + tw_allocated d + tg_msgs t <= tw_max d /\
    Forall (wf_tlv 0) ws /\ Forall wf_msg ms /\
    tw_header d + tw_added d + tw_allocated d <= overhead c (zlen (ts_sent s)) /\ (no_reserve c -> tw_allocated d = 0).
Definition sinv (s : tstate) (ps : list wpkt) (ms : list wmsg) : Prop :=
  ts_sent s = map enc_pkt ps /\ Forall good ps /\
  if ts_flushed s then ms = [] /\ zlen (tw_buf (tg_pkt (ts_target s))) = pc_size c else open_ok s ms.

Lemma sinv_begin s ps : ts_flushed s = true -> sinv s ps [] ->
  exists s', ts_begin c s = Some s' /\ ts_flushed s' = false /\ sinv s' ps [] /\ tg_msgs (ts_target s') = 0 /\ ts_sent s' = ts_sent s.
Proof.
  intros Fl (E & G & I). rewrite Fl in I. destruct I as [_ LB]. unfold ts_begin.
  destruct CO as (C0 & C1 & C2). destruct (C2 (zlen (ts_sent s))) as (D1 & D2 & D3 & D4 & D5).
  set (k := zlen (ts_sent s)) in *.
  destruct (begin_layout (tw_buf (tg_pkt (ts_target s))) (pc_size c) (pc_space c) (pc_seqno c k) (pc_ops c k)) as (rs & t & Eb & L & Q1 & Q2 & Q3 & Q4); auto; try lia.
  rewrite Eb. eexists. split; [reflexivity|]. split; [reflexivity|].
  destruct L as (a & g & b & L1 & L2 & L3 & L4 & L5 & L6 & L7 & L8 & L9).
  split; [|split; [cbn [ts_target]; rewrite <- L9; reflexivity|reflexivity]].
  split; [auto|]. split; [auto|]. cbn [ts_flushed]. exists (accepted (pc_ops c k) rs). cbv zeta. cbn [ts_target ts_sent].
  split; [exists a, g, b; auto 15|]. split; [exact Q1|]. split; auto. split; [lia|].
  pose proof L2 as (J0 & J1 & J2 & J3 & J4). split; [rewrite <- L9; change (zlen (@nil Z)) with 0; lia|].
  split; [apply accepted_wf; auto; lia|]. split; [constructor|].
  unfold begin_packet in Eb. cbn [tlv_init tw_buf] in Eb.
  set (h := match pc_seqno c k with Some _ => 5 | None => 3 end) in *.
  assert (3 <= h <= 5) as Hh by (unfold h; destruct (pc_seqno c k); lia).
  set (d0 := Twd (tw_buf (tg_pkt (ts_target s))) h 0 (pc_space c) 0 (pc_size c)) in *.
  assert (tw_ok d0) as I0 by (unfold tw_ok, d0; cbn; lia).
  destruct (tw_run d0 (pc_ops c k)) as [[rs' d']|] eqn:Er; [|discriminate]. injection Eb as <- <-. cbn [tg_pkt tg_seqno] in *.
  destruct (run_total _ d0 rs' d' I0 D2 Er) as [R1 R2]. fold k. unfold overhead. fold h.
  split.
  - rewrite L6. unfold hdr_size. fold h. unfold d0 in R1. cbn [tw_added tw_allocated] in R1. lia.
  - intros [N1 N2]. rewrite R2 by auto. unfold d0. cbn [tw_allocated]. exact N1.
Qed.

Lemma sinv_flush s ps ms : sinv s ps ms -> exists s' ps', ts_flush c s = Some s' /\ ts_flushed s' = true /\ sinv s' ps' [] /\
  flat_map wp_msgs ps' = flat_map wp_msgs ps ++ ms.
Proof.
  intros (E & G & I). unfold ts_flush. destruct (ts_flushed s) eqn:Fl.
  - destruct I as [-> LB]. exists s, ps. split; auto. split; auto. split; [|now rewrite app_nil_r].
    split; auto. split; auto. rewrite Fl. auto.
  - destruct I as (ws & L & Q1 & Q2 & Q3 & Q4 & Q5 & Q6 & Q7 & Q8).
    destruct CO as (C0 & C1 & C2). set (k := zlen (ts_sent s)) in *. destruct (C2 k) as (D1 & D2 & D3 & D4 & D5).
    destruct (flush_sends (ts_target s) ws ms (pc_sets c k) L) as (rs & Ef & Lr & Sz); auto.
    { intros x Ex. apply D1. congruence. }
    rewrite Ef. set (p := pkt_of _ _ _) in *.
    assert (zlen (enc_all (ws ++ accepted (pc_sets c k) rs)) < 65536) as SW.
    { assert (zlen (enc_all (ws ++ accepted (pc_sets c k) rs)) <= zlen (enc_pkt p)); [|lia].
      unfold p, enc_pkt, pkt_of. cbn [wp_tlvs wp_seqno wp_msgs].
      destruct (ws ++ accepted (pc_sets c k) rs) as [|w l] eqn:El; [change (zlen (enc_all [])) with 0; apply zlen_nonneg|].
      rewrite <- El. unfold enc_tlvs. fold (enc_all (ws ++ accepted (pc_sets c k) rs)). rewrite !zlen_app.
      repeat match goal with |- context [zlen ?X] => match goal with H : 0 <= zlen X |- _ => fail 1 | _ => pose proof (zlen_nonneg X) end end. lia. }
    eexists _, (ps ++ [p]). split; [reflexivity|]. split; [reflexivity|]. split.
    + split; [cbn [ts_sent]; rewrite map_app, E; reflexivity|]. split.
      * apply Forall_app. split; auto. constructor; [|constructor]. split; [|lia]. split; [|split; [|split; [|lia]]].
        -- cbn. intros x Ex. apply D1. congruence.
        -- intros l El. assert (l = ws ++ accepted (pc_sets c k) rs) as ->.
           { unfold p, pkt_of in El. cbn [wp_tlvs] in El. destruct (ws ++ accepted (pc_sets c k) rs); congruence. }
           apply Forall_app. split; auto. apply accepted_wf; auto. rewrite enc_all_app, zlen_app in SW.
           pose proof (zlen_nonneg (enc_all ws)). lia.
        -- exact Q6.
      * cbn [ts_flushed ts_target tg_pkt]. auto.
    + rewrite flat_map_app. cbn [flat_map]. now rewrite app_nil_r.
Qed.

Lemma sinv_append s ps ms m bs : sinv s ps ms -> ts_flushed s = false -> wf_msg m -> bs = enc_msg m ->
  (let d := tg_pkt (ts_target s) in tw_header d + tw_added d + tw_allocated d + tg_msgs (ts_target s) + zlen bs <= tw_max d) ->
  exists t, append_message (ts_target s) bs = Some t /\ sinv (Tstate t false (ts_sent s)) ps (ms ++ [m]).
Proof.
  intros (E & G & I) Fl W -> R. rewrite Fl in I. destruct I as (ws & L & Q1 & Q2 & Q3 & Q4 & Q5 & Q6 & Q7 & Q8).
  destruct (append_layout _ _ _ (enc_msg m) L R) as (t & -> & L' & A1 & A2 & A3 & A4 & A5 & A6).
  exists t. split; auto. split; auto. split; auto. cbn [ts_flushed ts_sent]. exists ws. cbv zeta in *. cbn [ts_target ts_sent].
  replace (flat_map enc_msg (ms ++ [m])) with (flat_map enc_msg ms ++ enc_msg m) by (rewrite flat_map_app; cbn [flat_map]; now rewrite app_nil_r).
  split; auto. split; [congruence|]. split; [congruence|]. split; [congruence|]. split.
  - destruct L' as (a & g & b & _ & _ & _ & _ & _ & _ & _ & _ & LM'). destruct L as (? & ? & ? & _ & _ & _ & _ & _ & _ & _ & _ & LM).
    rewrite zlen_app in LM'. lia.
  - split; auto. split; [apply Forall_app; auto|]. split; [lia|]. intros N. rewrite A6. auto.
Qed.

Lemma room_is s ps ms : sinv s ps ms -> ts_flushed s = false ->
  ts_room s = tw_max (tg_pkt (ts_target s)) - (tw_header (tg_pkt (ts_target s)) + tw_added (tg_pkt (ts_target s)) + tw_allocated (tg_pkt (ts_target s)) + tg_msgs (ts_target s)).
Proof.
  intros (E & G & I) Fl. rewrite Fl in I. destruct I as (ws & L & Q1 & Q2 & Q3 & Q4 & Q5 & Q6 & Q7 & Q8).
  unfold ts_room. destruct CO as (C0 & C1 & _). apply u64_small.
  destruct L as (a & g & b & _ & (J0 & J1 & J2 & J3 & J4) & _ & _ & _ & _ & _ & _ & LM). pose proof (zlen_nonneg (flat_map enc_msg ms)). lia.
Qed.

(** what is demanded of an operation *)
Definition sop_ok (o : sop) : Prop :=
  match o with
  | Generate m => wf_msg m /\ no_reserve c /\ forall k, 0 <= k -> overhead c k + msg_size m <= pc_size c
  | Forward m => wf_msg m /\ msg_size m <= MAX_MESSAGE_SIZE
  | Timer => True
  end.

Lemma step_ok o s ps ms : sinv s ps ms -> sop_ok o ->
  exists r s' ps' ms', ts_step c s (to_op o) = Some (r, s') /\ sinv s' ps' ms' /\
    flat_map wp_msgs ps' ++ ms' = (flat_map wp_msgs ps ++ ms) ++ leaving [o] [r] /\
    (r = 0 \/ exists m k, o = Forward m /\ 0 <= k /\ pc_size c < overhead c k + msg_size m).
Proof.
  intros I O. destruct o as [m|m|]; cbn [to_op ts_step leaving] in *.
  - (* generate *)
    destruct O as (W & N & R). unfold ts_generate.
    assert (exists s1, (if ts_flushed s then ts_begin c s else Some s) = Some s1 /\ sinv s1 ps ms /\ ts_flushed s1 = false) as (s1 & -> & I1 & F1).
    { destruct (ts_flushed s) eqn:Fl; [|exists s; auto].
      assert (ms = []) as -> by (destruct I as (_ & _ & I); rewrite Fl in I; tauto).
      destruct (sinv_begin s ps Fl I) as (s1 & -> & F1 & I1 & _). exists s1. auto. }
    set (d := tg_pkt (ts_target s1)).
    assert (exists s2 ps2 ms2, (if tw_header d + tw_added d + tw_set d + tg_msgs (ts_target s1) + zlen (enc_msg m) >? tw_max d
        then match ts_flush c s1 with None => None | Some s => ts_begin c s end else Some s1) = Some s2 /\
        sinv s2 ps2 ms2 /\ ts_flushed s2 = false /\ flat_map wp_msgs ps2 ++ ms2 = flat_map wp_msgs ps ++ ms /\
        (let d := tg_pkt (ts_target s2) in tw_header d + tw_added d + tw_allocated d + tg_msgs (ts_target s2) + zlen (enc_msg m) <= tw_max d))
      as (s2 & ps2 & ms2 & -> & I2 & F2 & E2 & R2).
    { rewrite Z.gtb_ltb. destruct (Z.ltb_spec (tw_max d) (tw_header d + tw_added d + tw_set d + tg_msgs (ts_target s1) + zlen (enc_msg m))) as [Lt|Ge].
      - destruct (sinv_flush s1 ps ms I1) as (s2 & ps2 & -> & F2 & I2 & E2).
        destruct (sinv_begin s2 ps2 F2 I2) as (s3 & -> & F3 & I3 & T3 & _).
        exists s3, ps2, []. split; auto. split; auto. split; auto. split; [rewrite app_nil_r; auto|].
        destruct I3 as (_ & _ & I3). rewrite F3 in I3. destruct I3 as (ws & L & Q1 & Q2 & Q3 & Q4 & Q5 & Q6 & Q7 & Q8).
        cbv zeta. rewrite zlen_enc_msg, T3. specialize (R (zlen (ts_sent s3)) (zlen_nonneg _)). lia.
      - exists s1, ps, ms. split; auto. split; auto. split; auto. split; auto. cbv zeta. fold d.
        destruct I1 as (_ & _ & I3). rewrite F1 in I3. destruct I3 as (ws & L & Q1 & Q2 & Q3 & Q4 & Q5 & Q6 & Q7 & Q8).
        specialize (Q8 N). fold d in Q8, L. destruct L as (a & g & b & _ & _ & S0 & _). fold d in S0. lia. }
    destruct (sinv_append s2 ps2 ms2 m _ I2 F2 W eq_refl R2) as (t & -> & I3). rewrite F2.
    eexists _, _, ps2, (ms2 ++ [m]). split; [reflexivity|]. split; auto. split; [rewrite app_assoc, E2; reflexivity|]. left; reflexivity.
  - (* forward *)
    destruct O as (W & Sz). unfold ts_forward.
    assert (exists s1 ps1 ms1, (if negb (ts_flushed s) && (zlen (enc_msg m) >? ts_room s) then ts_flush c s else Some s) = Some s1 /\
        sinv s1 ps1 ms1 /\ flat_map wp_msgs ps1 ++ ms1 = flat_map wp_msgs ps ++ ms /\
        (ts_flushed s1 = false -> zlen (enc_msg m) <= ts_room s1)) as (s1 & ps1 & ms1 & -> & I1 & E1 & R1).
    { rewrite Z.gtb_ltb. destruct (negb (ts_flushed s)) eqn:Nf; cbn [andb].
      - destruct (Z.ltb_spec (ts_room s) (zlen (enc_msg m))).
        + destruct (sinv_flush s ps ms I) as (s2 & ps2 & -> & F2 & I2 & E2).
          exists s2, ps2, []. split; auto. split; auto. split; [rewrite app_nil_r; auto|]. congruence.
        + exists s, ps, ms. auto 10.
      - exists s, ps, ms. split; auto. split; auto. split; auto. intros F. rewrite F in Nf. discriminate. }
    assert (exists s2, (if ts_flushed s1 then ts_begin c s1 else Some s1) = Some s2 /\ sinv s2 ps1 ms1 /\ ts_flushed s2 = false /\
        (zlen (enc_msg m) <= ts_room s2 \/ tg_msgs (ts_target s2) = 0)) as (s2 & -> & I2 & F2 & R2).
    { destruct (ts_flushed s1) eqn:Fl; [|exists s1; split; auto; split; auto; split; auto].
      assert (ms1 = []) as -> by (destruct I1 as (_ & _ & I1); rewrite Fl in I1; tauto).
      destruct (sinv_begin s1 ps1 Fl I1) as (s2 & -> & F2 & I2 & T2 & _). exists s2. auto. }
    rewrite !Z.gtb_ltb. destruct (Z.ltb_spec (ts_room s2) (zlen (enc_msg m))) as [Lt|Ge].
    + eexists _, s2, ps1, ms1. split; [reflexivity|]. split; auto. cbn [app].
      split; [rewrite E1; change (W_FW_MESSAGE_TOO_LONG =? 0) with false; cbn [andb app]; now rewrite app_nil_r|].
      right. destruct R2 as [R2|R2]; [lia|]. exists m, (zlen (ts_sent s2)). split; auto. split; [apply zlen_nonneg|].
      rewrite (room_is s2 _ _ I2 F2), R2, zlen_enc_msg in Lt. destruct I2 as (_ & _ & I3). rewrite F2 in I3.
      destruct I3 as (ws & L & Q1 & Q2 & Q3 & Q4 & Q5 & Q6 & Q7 & Q8). lia.
    + rewrite zlen_enc_msg in *. destruct (Z.ltb_spec MAX_MESSAGE_SIZE (msg_size m)); [lia|].
      assert (zget (enc_msg m) 1 = Some (msg_flags m + (wm_addrlen m - 1))) as Ez by (rewrite enc_msg_parts; reflexivity).
      rewrite Ez, (fwd_offsets_of m W). cbn [fst].
      assert ((match match wm_hoplimit m with Some _ => Some (4 + match wm_orig m with Some a => zlen a | None => 0 end) | None => None end with
               | Some i => match zget (enc_msg m) i with None => None | Some h => Some (h <=? 1) end
               | None => Some false end) = Some (negb (may_travel m))) as ->.
      { unfold may_travel. destruct (wm_hoplimit m) as [h|] eqn:Eh; [|reflexivity].
        rewrite enc_msg_parts, Eh. rewrite <- orig_len. cbn [opt1]. 
        replace ([wm_type m; msg_flags m + (wm_addrlen m - 1)] ++ be16 (msg_size m) ++ orig_bytes m ++ [h] ++ opt1 (wm_hopcount m) ++ msg_tail m)
          with (([wm_type m; msg_flags m + (wm_addrlen m - 1)] ++ be16 (msg_size m) ++ orig_bytes m) ++ h :: opt1 (wm_hopcount m) ++ msg_tail m)
          by (rewrite <- !app_assoc; reflexivity).
        rewrite zget_split by (rewrite !zlen_app, be16_zlen; change (zlen [_; _]) with 2; lia).
        f_equal. destruct (Z.leb_spec h 1), (Z.leb_spec 2 h); cbn; lia. }
      destruct (may_travel m) eqn:T; cbn [negb].
      * rewrite (forward_bytes_next m W T).
        destruct (sinv_append s2 ps1 ms1 (next_hop m) _ I2 F2 (next_hop_wf m W T) eq_refl) as (t & -> & I3).
        { cbv zeta. rewrite zlen_enc_msg, next_hop_size. rewrite (room_is s2 _ _ I2 F2) in Ge. lia. }
        rewrite F2. eexists _, _, ps1, (ms1 ++ [next_hop m]). split; [reflexivity|]. split; auto.
        split; [rewrite app_assoc, E1; reflexivity|]. left; reflexivity.
      * eexists _, s2, ps1, ms1. split; [reflexivity|]. split; auto. split; [rewrite E1, Bool.andb_false_r; cbn [app]; now rewrite app_nil_r|].
        left; reflexivity.
  - (* timer *)
    destruct (sinv_flush s ps ms I) as (s2 & ps2 & -> & F2 & I2 & E2).
    eexists _, s2, ps2, []. split; [reflexivity|]. split; auto. split; [rewrite app_nil_r, E2; cbn [app]; now rewrite app_nil_r|].
    left; reflexivity.
Qed.

Lemma leaving_app ops : forall rs ops' rs', length rs = length ops -> leaving (ops ++ ops') (rs ++ rs') = leaving ops rs ++ leaving ops' rs'.
Proof.
  induction ops as [|o ops IH]; intros [|r rs] ops' rs' L; try discriminate; [reflexivity|].
  cbn [app leaving]. rewrite IH by (cbn in L; lia). destruct o; cbn [app]; rewrite ?app_assoc; reflexivity.
Qed.

Lemma run_ok ops : forall s ps ms, sinv s ps ms -> Forall sop_ok ops ->
  exists rs s' ps' ms', ts_run c s (map to_op ops) = Some (rs, s') /\ sinv s' ps' ms' /\ length rs = length ops /\
    flat_map wp_msgs ps' ++ ms' = (flat_map wp_msgs ps ++ ms) ++ leaving ops rs /\
    Forall2 (fun o r => r = 0 \/ exists m k, o = Forward m /\ 0 <= k /\ pc_size c < overhead c k + msg_size m) ops rs.
Proof.
  induction ops as [|o ops IH]; intros s ps ms I F; cbn [map ts_run].
  - exists [], s, ps, ms. split; auto. split; auto. split; auto. cbn. rewrite app_nil_r. auto.
  - inversion F as [|? ? Fo F']; subst. destruct (step_ok o s ps ms I Fo) as (r & s1 & ps1 & ms1 & -> & I1 & E1 & R1).
    destruct (IH s1 ps1 ms1 I1 F') as (rs & s2 & ps2 & ms2 & -> & I2 & L2 & E2 & R2).
    exists (r :: rs), s2, ps2, ms2. split; auto. split; auto. split; [cbn; lia|].
    split; [|constructor; auto].
    rewrite E2, E1. rewrite <- app_assoc. f_equal. change (o :: ops) with ([o] ++ ops). change (r :: rs) with ([r] ++ rs).
    rewrite (leaving_app [o] [r]) by reflexivity. reflexivity.
Qed.
End Session.
