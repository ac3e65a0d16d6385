(** RFC 5444 writer, packets: TLVs are written as meant (C41), within the
    buffer (C42); forwarded messages (C44); messages are sent once, in order
    and in packets of the allowed size (C63). *)
From Verif Require Import Base BitsModel BufLemmas SplitLemmas NetaddrModel WriterModel ReaderModel ReadDispModel WireSpec WireParse WireReadProps
  WriterSpec WriterProofs WriterSession.

(** ** C42 *)
(** Every history of calls with lengths of objects that fit into memory: no
    access outside of the buffer, header and maximum stay, only bytes between
    the old and the new end of the TLVs change. *)
Theorem C42_tlv_writer_stays_inside ops d :
  tw_ok d -> Forall op_ok ops ->
  exists rs d', tw_run d ops = Some (rs, d') /\ tw_ok d' /\
    tw_header d' = tw_header d /\ tw_max d' = tw_max d /\ zlen (tw_buf d') = zlen (tw_buf d) /\ length rs = length ops /\
    forall i, i < tw_header d + tw_added d \/ tw_header d' + tw_added d' + tw_allocated d' <= i ->
              zget (tw_buf d') i = zget (tw_buf d) i.
Proof.
  intros I F. destruct (tw_run_ok ops d I F) as (rs & d' & E & I' & (U1 & U2 & U3) & L & _ & _ & _ & G).
  exists rs, d'. auto 10.
Qed.
(** A call succeeds exactly if there is room; otherwise nothing changes.
    [set] never uses more than was allocated (part of [tw_ok]). *)
Theorem C42_call_outcome d o :
  tw_ok d -> op_ok o ->
  exists r d', tw_step d o = Some (r, d') /\ tw_ok d' /\
    (op_fits d o -> r = W_OKAY) /\ (~ op_fits d o -> r = W_MTU_TOO_SMALL /\ d' = d) /\
    (r = W_OKAY -> tw_added d' + tw_allocated d' + tw_set d' = tw_added d + tw_allocated d + tw_set d + op_size o).
Proof.
  intros I F. destruct (tw_step_ok d o I F) as (r & d' & E & I' & _ & C). exists r, d'. split; auto. split; auto.
  destruct C as [(C1 & -> & C2 & C3 & C4 & _)|(C1 & -> & ->)].
  - split; auto. split; [tauto|]. intros _. destruct o; lia.
  - split; [tauto|]. split; [auto|discriminate].
Qed.
(** With a length near the end of size_t the size arithmetic wraps: the call is
    accepted, the allocated space shrinks below what is set, and a later [set]
    writes behind the end of the buffer. *)
Theorem C42_huge_length_refuted : exists d ops, tw_ok d /\
  Forall (fun o => match o with TAllocate _ l => is_u64 l | _ => op_ok o end) ops /\ tw_run d ops = None.
Proof.
  exists (Twd (repeat 0 20) 4 0 8 6 20), [TAllocate false 18446744073709551608; TSet 1 0 (repeat 7 20)].
  split; [unfold tw_ok, zlen; cbn; lia|]. split.
  - repeat constructor; unfold is_u64, is_u8, all_bytes; cbn; try lia. 
  - vm_compute. reflexivity.
Qed.
Definition d_ex : twd := Twd (repeat 99 24) 5 0 0 0 20.
Definition ops_ex : list twop := [TAdd 7 0 [1; 2]; TAllocate true 1; TAdd 8 0 []; TAdd 9 1 [1; 2; 3; 4]; TSet 10 3 [255]; TSet 10 3 [255]].
Example C42_ex : tw_ok d_ex /\ Forall op_ok ops_ex /\
  tw_run d_ex ops_ex = Some ([0; 0; 0; -12; 0; -12],
    Twd ([99; 99; 99; 99; 99] ++ [7; 16; 2; 1; 2; 8; 0; 10; 144; 3; 1; 255] ++ repeat 99 7) 5 7 5 5 20).
Proof.
  split; [unfold tw_ok, zlen; cbn; lia|]. split; [|vm_compute; reflexivity].
  repeat constructor; cbn; unfold is_u8; lia.
Qed.

(** ** C41 *)
(** The region of the TLVs holds exactly the accepted TLVs, in order, in the
    format of RFC 5444: first those added, then those set. *)
Theorem C41_block_is_what_was_accepted adds sets buf header max :
  0 <= header <= max -> max <= zlen buf -> max < 65536 ->
  Forall op_ok adds -> Forall op_ok sets ->
  Forall (fun o => is_set o = false) adds -> Forall (fun o => is_set o = true) sets ->
  exists rs1 d1 rs2 d2,
    tw_run (Twd buf header 0 0 0 max) adds = Some (rs1, d1) /\ tw_run d1 sets = Some (rs2, d2) /\
    copy_out (tw_buf d2) header (Z.to_nat (tw_added d2 + tw_set d2)) =
      Some (flat_map enc_tlv (accepted adds rs1 ++ accepted sets rs2)) /\
    Forall (wf_tlv 0) (accepted adds rs1 ++ accepted sets rs2).
Proof.
  intros H1 H2 H3 F1 F2 S1 S2. set (d := Twd buf header 0 0 0 max).
  assert (tw_ok d) as I by (unfold tw_ok, d; cbn; lia).
  destruct (zsplit buf header ltac:(lia)) as (a & g & -> & La & Lg).
  destruct (tw_run_ok adds d I F1) as (rs & d1 & E1 & I1 & (U1 & U2 & U3) & L1 & _).
  destruct (adds_content adds d [] a g I F1 S1) as (rs1 & d1' & g1 & E1' & B1 & LE1 & Z1); auto.
  rewrite E1 in E1'. injection E1' as <- <-. cbn [app] in *. cbn [d tw_header tw_max] in U2, U3.
  pose proof I1 as (J0 & J1 & J2 & J3 & J4). pose proof (f_equal zlen B1) as Q. rewrite !zlen_app in Q.
  destruct (zsplit g1 (tw_allocated d1) ltac:(lia)) as (g2 & g3 & -> & K1 & K2).
  destruct (tw_run_ok sets d1 I1 F2) as (rs2 & d2 & E2 & I2 & (V1 & V2 & V3) & L2 & _).
  destruct (sets_content sets g3 d1 (accepted adds rs) a g2 I1 F2 S2) as (rs2' & d2' & g4 & E2' & B2 & LE2 & G4 & A1 & A2); auto; try lia.
  rewrite E2 in E2'. injection E2' as <- <-.
  exists rs, d1, rs2, d2. split; auto. split; auto. 
  assert (zlen (enc_all (accepted adds rs ++ accepted sets rs2)) < 65536) as SZ by (destruct I2 as (? & ? & ? & ? & ?); lia).
  split.
  - rewrite B2, <- LE2. unfold zlen at 1. rewrite Nat2Z.id. apply copy_out_split. lia.
  - rewrite enc_all_app, zlen_app in SZ. pose proof (zlen_nonneg (enc_all (accepted adds rs))). pose proof (zlen_nonneg (enc_all (accepted sets rs2))).
    apply Forall_app. split; apply accepted_wf; auto; lia.
Qed.

(** A packet with its TLVs and messages: what is sent is the packet of RFC
    5444 with exactly the accepted TLVs and the messages ... *)
Theorem C41_packet_is_what_was_accepted buf size space q adds sets ms :
  zlen buf >= size -> 0 <= space -> 5 + space <= size < 65536 -> (forall s, q = Some s -> is_u16 s) ->
  Forall op_ok adds -> Forall op_ok sets ->
  Forall (fun o => is_set o = false) adds -> Forall (fun o => is_set o = true) sets ->
  Forall wf_msg ms -> 
  exists rs1 t, begin_packet buf size space q adds = Some (rs1, t) /\
    (tw_header (tg_pkt t) + tw_added (tg_pkt t) + tw_allocated (tg_pkt t) + zlen (flat_map enc_msg ms) <= size ->
     exists t' rs2, append_messages t (map enc_msg ms) = Some t' /\
       let p := pkt_of q (accepted adds rs1 ++ accepted sets rs2) ms in
       flush t' sets = Some (rs2, enc_pkt p) /\ wf_pkt p /\ zlen (enc_pkt p) <= size).
Proof.
  intros L S0 S1 Q F1 F2 T1 T2 W.
  destruct (begin_layout buf size space q adds L S0 S1 F1 T1) as (rs1 & t & E & LY & Eq & Em & Lb & Lr).
  exists rs1, t. split; auto. intros R.
  assert (exists t', append_messages t (map enc_msg ms) = Some t' /\ layout t' (accepted adds rs1) (flat_map enc_msg ms) /\ tg_seqno t' = q /\
    tw_header (tg_pkt t') + tw_added (tg_pkt t') + tw_allocated (tg_pkt t') + tg_msgs t' <= size) as (t' & EA & LY' & Eq' & R').
  { assert (tg_msgs t = 0) as M0 by (destruct LY as (? & ? & ? & _ & _ & _ & _ & _ & _ & _ & _ & X); rewrite <- X; reflexivity).
    change (flat_map enc_msg ms) with ([] ++ flat_map enc_msg ms). revert LY. generalize (@nil Z) as pre.
    assert (tw_header (tg_pkt t) + tw_added (tg_pkt t) + tw_allocated (tg_pkt t) + tg_msgs t + zlen (flat_map enc_msg ms) <= tw_max (tg_pkt t)) as R0 by lia.
    rewrite <- Em. clear -R0 Eq. revert t R0 Eq. induction ms as [|m ms IH]; intros t R Eq pre LY; cbn [map append_messages flat_map].
    - exists t. rewrite app_nil_r. split; auto. split; auto. split; auto. change (zlen (flat_map enc_msg [])) with 0 in R. lia.
    - cbn [flat_map] in R. rewrite zlen_app in R. pose proof (zlen_nonneg (flat_map enc_msg ms)).
      destruct (append_layout t _ pre (enc_msg m) LY ltac:(lia)) as (t1 & -> & LY1 & A1 & A2 & A3 & A4 & A5 & A6).
      assert (tg_msgs t1 = tg_msgs t + zlen (enc_msg m)) as M1.
      { destruct LY as (? & ? & ? & _ & _ & _ & _ & _ & _ & _ & _ & X), LY1 as (? & ? & ? & _ & _ & _ & _ & _ & _ & _ & _ & Y).
        rewrite zlen_app in Y. lia. }
      destruct (IH t1 ltac:(lia) ltac:(congruence) (pre ++ enc_msg m) LY1) as (t' & E & LY' & Eq' & R'). exists t'.
      rewrite <- app_assoc in LY'. split; auto. split; auto. split; auto. lia. }
  destruct (flush_sends t' _ ms sets LY') as (rs2 & EF & L2 & Sz); auto; [intros s Es; apply Q; congruence|].
  exists t', rs2. split; auto. rewrite Eq' in *. cbv zeta. split; auto.
  set (ws := accepted adds rs1 ++ accepted sets rs2) in *.
  assert (zlen (enc_all ws) <= zlen (enc_pkt (pkt_of q ws ms))) as SW.
  { unfold enc_pkt, pkt_of. cbn [wp_tlvs wp_seqno wp_msgs]. destruct ws as [|w l] eqn:El; [change (zlen (enc_all [])) with 0; apply zlen_nonneg|].
    rewrite <- El. unfold enc_tlvs. fold (enc_all ws). rewrite !zlen_app.
    repeat match goal with |- context [zlen ?X] => match goal with H : 0 <= zlen X |- _ => fail 1 | _ => pose proof (zlen_nonneg X) end end. lia. }
  split; [|lia]. split; [|split; [|split; [exact W|lia]]]; [auto|].
  intros l El. assert (l = ws) as -> by (unfold pkt_of in El; cbn [wp_tlvs] in El; destruct ws; congruence).
  unfold ws in SW. rewrite enc_all_app, zlen_app in SW.
  pose proof (zlen_nonneg (enc_all (accepted adds rs1))). pose proof (zlen_nonneg (enc_all (accepted sets rs2))).
  apply Forall_app. split; apply accepted_wf; auto; unfold ws in *; lia.
Qed.
(** ... and a reader shows to its consumers exactly these TLVs: all of them if
    every consumer answers "okay", and nothing else in any case. *)
Theorem C41_reader_agrees buf size space q adds sets ms rs1 t t' rs2 pkt cb alloc fwd pcons mcons mem :
  zlen buf >= size -> 0 <= space -> 5 + space <= size < 65536 -> (forall s, q = Some s -> is_u16 s) ->
  Forall op_ok adds -> Forall op_ok sets ->
  Forall (fun o => is_set o = false) adds -> Forall (fun o => is_set o = true) sets ->
  Forall wf_msg ms -> (forall n, alloc n = true) ->
  begin_packet buf size space q adds = Some (rs1, t) ->
  tw_header (tg_pkt t) + tw_added (tg_pkt t) + tw_allocated (tg_pkt t) + zlen (flat_map enc_msg ms) <= size ->
  append_messages t (map enc_msg ms) = Some t' -> flush t' sets = Some (rs2, pkt) ->
  let p := pkt_of q (accepted adds rs1 ++ accepted sets rs2) ms in
  exists res tr mem', handle_packet cb pkt alloc fwd pcons mcons mem = Ok (res, tr, mem') /\ Forall (fits p) tr /\
    ((forall h, a_res (cb h) = OKAY) -> res = OKAY /\ told_all p pcons mcons tr).
Proof.
  intros L S0 S1 Q F1 F2 T1 T2 W A E1 R E2 E3 p.
  destruct (C41_packet_is_what_was_accepted buf size space q adds sets ms L S0 S1 Q F1 F2 T1 T2 W) as (rs1' & t0 & E1' & K).
  rewrite E1 in E1'. injection E1' as <- <-. destruct (K R) as (t1 & rs2' & E2' & E3' & Wp & Sz).
  rewrite E2 in E2'. injection E2' as <-. rewrite E3 in E3'. injection E3' as <- ->. fold p in Wp, Sz |- *.
  destruct (C58_packets_understood cb alloc fwd pcons mcons mem p Wp A) as (res & tr & mem' & E & F & _).
  exists res, tr, mem'. split; auto. split; auto. intros OK.
  destruct (C58_nothing_missed cb alloc fwd pcons mcons mem p Wp A OK) as (tr' & mem'' & E' & T). rewrite E in E'. injection E' as -> -> ->. auto.
Qed.

Definition m_ex : wmsg :=
  {| wm_type := 1; wm_addrlen := 4; wm_orig := Some [10; 0; 0; 1]; wm_hoplimit := Some 5; wm_hopcount := Some 255; wm_seqno := Some 300;
     wm_tlvs := [tlv_of 5 0 [7; 8]]; wm_blocks := [] |}.
Lemma m_ex_wf : wf_msg m_ex.
Proof.
  unfold wf_msg, m_ex. cbn [wm_type wm_addrlen wm_orig wm_hoplimit wm_hopcount wm_seqno wm_tlvs wm_blocks].
  split; [unfold is_u8; lia|]. split; [lia|].
  split; [intros a E; injection E as <-; split; [repeat constructor; unfold is_u8; lia|reflexivity]|].
  split; [intros h E; injection E as <-; unfold is_u8; lia|]. split; [intros h E; injection E as <-; unfold is_u8; lia|].
  split; [intros h E; injection E as <-; unfold is_u16; lia|].
  split; [|split; [constructor|vm_compute; reflexivity]].
  constructor; [|constructor]. unfold wf_tlv. cbn. unfold is_u8. split; [lia|]. split; [discriminate|].
  split; [repeat constructor; unfold is_u8; lia|]. split; [vm_compute; reflexivity|auto].
Qed.
Definition adds_ex : list twop := [TAdd 7 0 [1; 2]; TAllocate true 4; TAdd 8 200 []].
Definition sets_ex : list twop := [TSet 10 3 [255]].
Example C41_ex : zlen (repeat 0 60) >= 60 /\ Forall op_ok adds_ex /\ Forall op_ok sets_ex /\ Forall wf_msg [m_ex] /\
  exists t t', begin_packet (repeat 0 60) 60 0 (Some 258) adds_ex = Some ([0; 0; 0], t) /\
    tw_header (tg_pkt t) + tw_added (tg_pkt t) + tw_allocated (tg_pkt t) + zlen (flat_map enc_msg [m_ex]) <= 60 /\
    append_messages t (map enc_msg [m_ex]) = Some t' /\
    flush t' sets_ex = Some ([0], [12; 1; 2; 0; 13; 7; 16; 2; 1; 2; 8; 128; 200; 10; 144; 3; 1; 255] ++
      [1; 243; 0; 19; 10; 0; 0; 1; 5; 255; 1; 44; 0; 5; 5; 16; 2; 7; 8]).
Proof.
  split; [vm_compute; congruence|]. split; [repeat constructor; cbn; unfold is_u8; lia|].
  split; [repeat constructor; cbn; unfold is_u8; lia|]. split; [constructor; [exact m_ex_wf|constructor]|].
  eexists _, _. split; [vm_compute; reflexivity|]. split; [vm_compute; congruence|]. split; [vm_compute; reflexivity|vm_compute; reflexivity].
Qed.

(** ** C44, the forwarder *)
(** The forwarded copy is the message with one hop less to go and one hop more
    behind it, everything else as it was. *)
Theorem C44_forwarded_copy m : wf_msg m -> may_travel m = true ->
  forward_bytes (enc_msg m) = Some (enc_msg (next_hop m)) /\ wf_msg (next_hop m).
Proof. intros W T. split; [apply forward_bytes_next|apply next_hop_wf]; auto. Qed.
(** A message with hop limit 0 or 1 goes nowhere, and neither does one which
    does not fit; otherwise exactly the forwarded copy is put into the packet
    ([leaving] of C63 below). *)
Example C44_copy_ex : wf_msg m_ex /\ may_travel m_ex = true /\
  forward_bytes (enc_msg m_ex) = Some [1; 243; 0; 19; 10; 0; 0; 1; 4; 0; 1; 44; 0; 5; 5; 16; 2; 7; 8].
Proof. split; [exact m_ex_wf|]. split; vm_compute; reflexivity. Qed.
(** The hop count is incremented modulo 256: a message which has travelled 255
    hops looks like a new one. *)
Theorem C44_hop_count_refuted : exists m, wf_msg m /\ may_travel m = true /\ wm_hopcount m = Some 255 /\
  exists m', forward_bytes (enc_msg m) = Some (enc_msg m') /\ wm_hopcount m' = Some 0.
Proof.
  exists m_ex. split; [exact m_ex_wf|]. split; [reflexivity|]. split; [reflexivity|]. exists (next_hop m_ex).
  split; [apply forward_bytes_next; [exact m_ex_wf|reflexivity]|reflexivity].
Qed.

(** ** C63 *)
(** For every configuration of a target and every sequence of generated
    messages, forwarded messages of at most 1225 bytes and timer events: no
    fault, and after a last flush everything which had to leave has been sent
    exactly once and in order, in well-formed packets of the allowed size.
    Only messages which do not fit into an empty packet are refused. *)
Theorem C63_sent_once_in_order c buf ops :
  cfg_ok c -> zlen buf = pc_size c ->
  (forall m, In (Generate m) ops -> wf_msg m /\ no_reserve c /\ forall k, 0 <= k -> overhead c k + msg_size m <= pc_size c) ->
  (forall m, In (Forward m) ops -> wf_msg m /\ msg_size m <= MAX_MESSAGE_SIZE) ->
  exists rs s s' ps, ts_run c (ts_init c buf) (map to_op ops) = Some (rs, s) /\ ts_flush c s = Some s' /\
    ts_sent s' = map enc_pkt ps /\ flat_map wp_msgs ps = leaving ops rs /\
    Forall (fun p => wf_pkt p /\ zlen (enc_pkt p) <= pc_size c) ps /\
    Forall2 (fun o r => r = W_OKAY \/ exists m k, o = Forward m /\ 0 <= k /\ pc_size c < overhead c k + msg_size m) ops rs.
Proof.
  intros CO LB HG HF.
  assert (sinv c (ts_init c buf) [] []) as I by (split; [reflexivity|]; split; [constructor|]; cbn; auto).
  destruct (run_ok c CO ops _ _ _ I) as (rs & s & ps & ms & E & I' & L & EM & R).
  { apply Forall_forall. intros [m|m|] Hm; cbn; auto. }
  destruct (sinv_flush c CO s ps ms I') as (s' & ps' & E' & _ & (ES & G & _) & EM').
  exists rs, s, s', ps'. split; auto. split; auto. split; auto. split; [rewrite EM', EM; reflexivity|]. auto.
Qed.
Definition c_ex : pktcfg := Pktcfg 60 0 (fun k => Some (u16 k)) (fun _ => [TAdd 7 0 [1; 2]]) (fun _ => []).
Example C63_ex : cfg_ok c_ex /\ no_reserve c_ex /\ wf_msg m_ex /\ (forall k, overhead c_ex k + msg_size m_ex <= pc_size c_ex) /\
  option_map (fun x => (fst x, map zlen (ts_sent (snd x)))) 
    (ts_run c_ex (ts_init c_ex (repeat 0 60)) (map to_op [Generate m_ex; Forward m_ex; Forward m_ex; Timer; Timer])) = Some ([0; 0; 0; 0; 0], [48; 29]).
Proof.
  split; [|split; [|split; [exact m_ex_wf|split; [|vm_compute; reflexivity]]]].
  - split; [cbn; lia|]. split; [cbn; lia|]. intros k. cbn [c_ex pc_seqno pc_ops pc_sets].
    split; [intros s E; injection E as <-; apply u16_range|]. repeat split; repeat constructor; cbn; unfold is_u8; lia.
  - split; [reflexivity|]. intros k. repeat constructor.
  - intros k. vm_compute. congruence.
Qed.

(** Space reserved for packet TLVs (or for a packet post-processor) is not
    counted when a generated message is put into a packet: it is written behind
    the end of the packet buffer although it fits into an empty packet. *)
Definition c_bad : pktcfg := Pktcfg 60 0 (fun _ => None) (fun _ => [TAllocate false 6]) (fun _ => [TSet 9 0 [1; 2; 3; 4; 5; 6]]).
Theorem C63_reserved_space_refuted : exists c buf m, cfg_ok c /\ zlen buf = pc_size c /\ wf_msg m /\
  (forall k, 0 <= k -> overhead c k + msg_size m <= pc_size c) /\
  ts_run c (ts_init c buf) (map to_op [Generate m; Generate m; Generate m]) = None.
Proof.
  exists c_bad, (repeat 0 60), m_ex. split; [|split; [reflexivity|split; [exact m_ex_wf|split; [|vm_compute; reflexivity]]]].
  - split; [cbn; lia|]. split; [cbn; lia|]. intros k. cbn [c_bad pc_seqno pc_ops pc_sets].
    split; [discriminate|]. repeat split; repeat constructor; cbn; unfold is_u8; lia.
  - intros k _. vm_compute. congruence.
Qed.

(** A received message of more than 1225 bytes which fits into a packet (the
    packets of the router have 1472 bytes) is copied over the end of the static
    message buffer when it is forwarded. *)
Definition m_long : wmsg :=
  {| wm_type := 1; wm_addrlen := 4; wm_orig := None; wm_hoplimit := Some 5; wm_hopcount := None; wm_seqno := None;
     wm_tlvs := [tlv_of 5 0 (repeat 0 1300)]; wm_blocks := [] |}.
Definition c_real : pktcfg := Pktcfg 1472 0 (fun _ => None) (fun _ => []) (fun _ => []).
Theorem C44_large_message_refuted : exists c buf m, cfg_ok c /\ zlen buf = pc_size c /\ wf_msg m /\ may_travel m = true /\
  overhead c 0 + msg_size m <= pc_size c /\ ts_run c (ts_init c buf) (map to_op [Forward m]) = None.
Proof.
  exists c_real, (repeat 0 1472), m_long. split; [|split; [reflexivity|split; [|split; [reflexivity|split; [vm_compute; congruence|vm_compute; reflexivity]]]]].
  - split; [cbn; lia|]. split; [cbn; lia|]. intros k. cbn [c_real pc_seqno pc_ops pc_sets]. split; [discriminate|]. repeat split; constructor.
  - unfold wf_msg, m_long. cbn [wm_type wm_addrlen wm_orig wm_hoplimit wm_hopcount wm_seqno wm_tlvs wm_blocks].
    split; [unfold is_u8; lia|]. split; [lia|]. split; [discriminate|].
    split; [intros h E; injection E as <-; unfold is_u8; lia|]. split; [discriminate|]. split; [discriminate|].
    split; [|split; [constructor|vm_compute; reflexivity]].
    constructor; [|constructor]. unfold wf_tlv. cbn [tlv_of w_type w_ext w_long]. split; [unfold is_u8; lia|]. split; [discriminate|].
    split; [|split; [vm_compute; reflexivity|cbn; auto]].
    replace (value_bytes (tlv_of 5 0 (repeat 0 1300))) with (repeat 0 1300) by reflexivity. apply Forall_repeat. unfold is_u8. lia.
Qed.

Print Assumptions C42_tlv_writer_stays_inside.
Print Assumptions C42_call_outcome.
Print Assumptions C42_huge_length_refuted.
Print Assumptions C41_block_is_what_was_accepted.
Print Assumptions C41_packet_is_what_was_accepted.
Print Assumptions C41_reader_agrees.
Print Assumptions C44_forwarded_copy.
Print Assumptions C44_hop_count_refuted.
Print Assumptions C63_sent_once_in_order.
Print Assumptions C63_reserved_space_refuted.
Print Assumptions C44_large_message_refuted.
