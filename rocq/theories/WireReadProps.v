(** RFC 5444 reader: what consumers are shown is what the packet says (C58). *)
From Verif Require Import Base BitsModel BitsProofs BufLemmas SplitLemmas NetaddrModel ReaderModel ReadDispModel ReaderSpec ReaderProofs ReadDispProofs
  ReadTlvProofs WireSpec WireParse WireDispatch WireReadProofs WireComplete.

(** C58: every well-formed packet (WireSpec.v) is processed without fault,
    whatever consumers are registered and whatever they answer; every callback
    has the context of the packet, of a message of it or of an address of a
    message; the address and its prefix length are the ones the address block
    encodes; every TLV shown is a TLV of the packet which concerns this
    packet, message or address, with the value it has for it; a message is
    forwarded as it is.  The result is success or an answer of a consumer. *)
Theorem C58_packets_understood cb alloc fwd pcons mcons m p :
  wf_pkt p -> (forall n, alloc n = true) ->
  exists res tr m', handle_packet cb (enc_pkt p) alloc fwd pcons mcons m = Ok (res, tr, m') /\
    Forall (fits p) tr /\ (res = OKAY \/ exists h, a_res (cb h) = res).
Proof.
  intros W A. destruct (handle_packet_fit cb alloc fwd p pcons mcons m A W) as (res & tr & m' & E & F & R).
  exists res, tr, m'. split; auto. split.
  - eapply Forall_impl; [|exact F]. cbv beta. intros e [He|(before & M & after & EM & H1 & H2)]; [left; auto|right].
    exists before, M, after. split; auto. set (L := zlen (flat_map enc_msg (wp_msgs p))) in H1.
    assert (L = zlen (flat_map enc_msg before) + zlen (flat_map enc_msg (M :: after))) as EL by (unfold L; rewrite EM, flat_map_app, zlen_app; reflexivity).
    replace (zlen (enc_pkt p) - L + zlen (flat_map enc_msg before)) with (zlen (enc_pkt p) - zlen (flat_map enc_msg (M :: after))) in H1 by lia. auto.
  - unfold from_cb in R. tauto.
Qed.

Lemma heard_blocks_at pkt seq M h c off bs tr : heard_blocks pkt seq M h c off bs tr -> forall before b after i, bs = before ++ b :: after ->
  0 <= i < wb_num b -> heard_addr pkt seq M h c (off + zlen (flat_map enc_block before)) i b tr.
Proof.
  revert off. induction bs as [|b0 bs IH]; intros off H before b after i E Hi.
  - now apply app_cons_not_nil in E.
  - cbn in H. destruct H as [H1 H2]. destruct before as [|b1 before]; cbn in E; injection E as -> E.
    + cbn [flat_map]. change (zlen (@nil Z)) with 0. rewrite Z.add_0_r. auto.
    + cbn [flat_map]. rewrite zlen_app, Z.add_assoc. eapply IH; eauto.
Qed.

(** C58: if all consumers answer "okay", nothing is missed: every consumer is
    told about every packet, every message of its type or every address of
    it, and every one of their TLVs. *)
Theorem C58_nothing_missed cb alloc fwd pcons mcons m p :
  wf_pkt p -> (forall n, alloc n = true) -> (forall h, a_res (cb h) = OKAY) ->
  exists tr m', handle_packet cb (enc_pkt p) alloc fwd pcons mcons m = Ok (OKAY, tr, m') /\ told_all p pcons mcons tr.
Proof.
  intros W A Q. destruct (handle_packet_fit cb alloc fwd p pcons mcons m A W) as (res & tr & m' & E & _ & R).
  assert (res = OKAY) as -> by (unfold from_cb in R; destruct R as [->|[->|(h & <-)]]; auto).
  clear R. exists tr, m'. split; auto.
  destruct W as (W1 & W2 & W3 & W4). set (pkt := enc_pkt p) in *. unfold handle_packet in E.
  destruct (pkt_flags_tests p) as (F0 & F1 & F2).
  assert (holds pkt 0 (enc_pkt p)) as H by (exists [], []; split; [unfold pkt; now rewrite app_nil_r|reflexivity]).
  unfold enc_pkt in H. cbn [app] in H. set (fl := has (wp_seqno p) 8 + has (wp_tlvs p) 4) in *.
  assert (zlen pkt = 1 + zlen (match wp_seqno p with Some s => be16 s | None => [] end)
            + zlen (match wp_tlvs p with Some ws => enc_tlvs ws | None => [] end) + zlen (flat_map enc_msg (wp_msgs p))) as LP.
  { unfold pkt, enc_pkt. rewrite !zlen_app. change (zlen [_]) with 1. lia. }
  fold pkt in W4.
  pose proof (zlen_nonneg (match wp_seqno p with Some s => be16 s | None => [] end)) as L1.
  pose proof (zlen_nonneg (match wp_tlvs p with Some ws => enc_tlvs ws | None => [] end)) as L2.
  pose proof (zlen_nonneg (flat_map enc_msg (wp_msgs p))) as L3.
  revert E. destruct (Z.gtb_spec (zlen pkt) 65535); [lia|].
  destruct (get_u8_holds _ _ (zlen pkt) _ _ H ltac:(lia)) as [-> H1]. cbn [obind].
  rewrite F0. cbn [Z.eqb negb]. rewrite F1, F2. change (0 + 1) with 1 in *.
  apply holds_app in H1 as [H1 H2].
  match goal with |- context [obind ?X _] =>
    assert (X = Ok (wp_seqno p, 1 + zlen (match wp_seqno p with Some s => be16 s | None => [] end), OKAY)) as -> end.
  { destruct (wp_seqno p) as [s|].
    - rewrite be16_len in *. replace (be16 s) with (be16 s ++ []) in H1 by apply app_nil_r.
      destruct (get_u16_holds _ _ (zlen pkt) _ _ H1 ltac:(lia) (W1 s eq_refl)) as [-> _]. reflexivity.
    - reflexivity. }
  cbn [obind]. change (negb (OKAY =? OKAY)) with false. cbn iota.
  set (p1 := 1 + zlen _) in *. apply holds_app in H2 as [H2 H3].
  set (ws := match wp_tlvs p with Some ws => ws | None => [] end).
  match goal with |- context [obind ?X _] =>
    assert (exists l m', X = Ok (OKAY, p1 + zlen (match wp_tlvs p with Some ws => enc_tlvs ws | None => [] end), l, m') /\ kept pkt 0 ws l) as (l & m1 & -> & HL) end.
  { unfold ws. destruct (wp_tlvs p) as [ws'|].
    - destruct (parse_tlvblock_decodes alloc pkt A 0 (zlen pkt) ws' p1 m ltac:(lia) (W2 ws' eq_refl)) as (ts & m2 & -> & D & _); auto.
      { unfold enc_tlvs in L2, LP. rewrite zlen_app, be16_len in *. lia. }
      { lia. }
      do 2 eexists. split; [reflexivity|]. apply decoded_kept; auto.
    - change (zlen (@nil Z)) with 0. rewrite Z.add_0_r. do 2 eexists. split; [reflexivity|]. intros w []. }
  cbn [obind]. change (negb (OKAY =? OKAY)) with false. cbn iota.
  set (p2 := p1 + zlen _) in *.
  match goal with |- context [pkt_loop cb pkt pcons (wp_seqno p) ?ht] => 
    pose proof (pkt_loop_hears cb pkt Q alloc A (wp_seqno p) ht ws pcons ltac:(unfold ws; destruct (wp_tlvs p); [discriminate|auto]) l O ds0 HL) as PL;
    cbn zeta in PL; destruct (pkt_loop cb pkt pcons (wp_seqno p) ht l O ds0) as [[[[res tl'] n] st1]|]; [|discriminate] end.
  cbn [wp] in PL. destruct PL as (-> & M1 & FP). cbn [obind]. change (OKAY =? OKAY) with true. cbn iota.
  pose proof (message_loop_hears cb pkt Q alloc fwd A (wp_seqno p) mcons (zlen pkt) (wp_msgs p) W3 (S (length pkt)) p2 st1 m1 H3 ltac:(lia)) as ML.
  destruct (message_loop cb pkt alloc fwd (S (length pkt)) mcons (wp_seqno p) p2 (zlen pkt) st1 m1) as [[[res st2] m2]|]; [|discriminate].
  cbn [wp] in ML. destruct ML as (-> & M2 & HI). cbn [obind]. intros EE. injection EE as EE _. subst tr.
  set (st3 := pkt_end cb (rev (firstn n pcons)) (wp_seqno p) OKAY st2).
  assert (mono st2 st3) as M3 by apply (pkt_end_hears cb Q).
  split.
  - intros c Hc. rewrite Forall_forall in FP. destruct (FP c Hc) as [S1 S2]. unfold told_packet. fold ws.
    assert (in_packet p (mkctx KPacket (wp_seqno p) None na_unspec 0) 0 0 ws) as IP by (repeat split; auto).
    split.
    + intros E. eexists. split; [exact IP|]. apply M3, M2. auto.
    + intros E w Hw Cw. destruct (S2 E w Hw Cw) as (x & t & <- & T1 & T2). eexists. exists t. split; [exact IP|]. split; auto. 
  - intros before M after c EM Hc Hh. destruct (HI before M after c EM Hc) as (h & HH & HM).
    { unfold c_handles. destruct Hh as [->| ->]; auto. rewrite Z.eqb_refl. apply orb_true_r. }
    apply (heard_msg_mono pkt _ _ _ _ c st2 st3 M3) in HM.
    assert (p2 + zlen (flat_map enc_msg before) = zlen pkt - zlen (flat_map enc_msg (M :: after))) as EP.
    { rewrite EM in LP. rewrite flat_map_app, zlen_app in LP. lia. }
    fold pkt. rewrite <- EP. set (start := p2 + zlen (flat_map enc_msg before)) in *.
    unfold told_message. unfold heard_msg in HM. destruct (c_addrblock c).
    + intros pre b post i EB Hi. pose proof (heard_blocks_at _ _ _ _ _ _ _ _ HM pre b post i EB Hi) as HA.
      rewrite EB in HA. rewrite flat_map_app, zlen_app in HA.
      replace (start + msg_size M - (zlen (flat_map enc_block pre) + zlen (flat_map enc_block (b :: post))) + zlen (flat_map enc_block pre))
        with (start + msg_size M - zlen (flat_map enc_block (b :: post))) in HA by lia.
      set (off := start + msg_size M - zlen (flat_map enc_block (b :: post))) in *.
      assert (forall x, about (wp_seqno p) M h off i b x -> in_message (wp_seqno p) start M x (wb_num b) i (wb_tlvs b) /\ x_kind x = KAddress /\ x_index x = i /\ x_block x = Some off) as AB.
      { intros x (X1 & X2 & X3 & X4 & X5 & a & q & r & X6 & X7 & X8). split; auto. split; auto. split; [exists h; auto|]. right. split; auto.
        exists pre, b, post, a, q, r. rewrite X5. auto 10. }
      destruct HA as (A1 & _ & A2). split.
      * intros E. destruct (A1 E) as (x & X1 & X2). exists x. auto.
      * intros E w Hw Cw. destruct (A2 E w Hw Cw) as (x & t & X1 & X2 & X3). exists x, t. auto.
    + destruct HM as [A1 A2].
      assert (in_message (wp_seqno p) start M (mkctx KMessage (wp_seqno p) (Some h) na_unspec 0) 0 0 (wm_tlvs M)) as IM.
      { split; [reflexivity|]. split; [exists h; auto|]. left. auto. }
      split.
      * intros E. eexists. split; [split; [exact IM|reflexivity]|]. auto.
      * intros E w Hw Cw. destruct (A2 E w Hw Cw) as (x & t & <- & X2 & X3). eexists. exists t. split; [split; [exact IM|reflexivity]|]. auto.
Qed.

(** ** Example: a packet with sequence number and packet TLV, two messages; the
    second one has two IPv4 addresses with head, tail and prefix lengths of
    their own, one TLV per address with a multivalue, one for the second only *)
Definition wt (ty : Z) (ix : windex) (v : bytes) (mu : bool) : wtlv :=
  {| w_type := ty; w_ext := None; w_index := ix; w_long := false; w_value := Some v; w_multi := mu |}.
Definition p_ex : wpkt :=
  {| wp_seqno := Some 7; wp_tlvs := Some [wt 9 WAll [1] false];
     wp_msgs := [{| wm_type := 1; wm_addrlen := 4; wm_orig := Some [10;0;0;1]; wm_hoplimit := Some 5; wm_hopcount := None; wm_seqno := Some 300;
                    wm_tlvs := [wt 5 WAll [7;8] false]; wm_blocks := [] |};
                 {| wm_type := 2; wm_addrlen := 4; wm_orig := None; wm_hoplimit := None; wm_hopcount := None; wm_seqno := None;
                    wm_tlvs := [];
                    wm_blocks := [{| wb_head := [10;1]; wb_tail := TFull [9]; wb_mids := [[1];[2]]; wb_plen := PEach [32;24];
                                     wb_tlvs := [wt 6 WAll [1;2;3;4] true; wt 3 (WOne 1) [7] false] |}] |}] |}.
Definition lis (id ty : Z) (ad : bool) : consumer :=
  {| c_id := id; c_order := 0; c_default := false; c_msgid := ty; c_addrblock := ad; c_start := true; c_tlv := true; c_block := false;
     c_failed := false; c_end := true; c_entries := [] |}.
Lemma bytes_of (l : bytes) : forallb (fun b => (0 <=? b) && (b <? 256)) l = true -> all_bytes l.
Proof. intros H. apply Forall_forall. intros b Hb. rewrite forallb_forall in H. specialize (H b Hb). unfold is_u8. lia. Qed.
Ltac wf_step := match goal with
  | H : ?e = Some _ |- _ => cbn in H; (discriminate H || injection H as <-)
  | |- all_bytes _ => apply bytes_of; reflexivity
  | |- is_u8 _ => unfold is_u8
  | |- is_u16 _ => unfold is_u16
  | |- Forall _ _ => constructor
  | |- _ /\ _ => split
  | |- _ <= _ => vm_compute; discriminate
  | |- _ < _ => reflexivity
  | |- _ = _ => reflexivity
  | |- True => exact I
  | |- if ?b then _ else _ => let v := eval vm_compute in b in change b with v; cbv iota
  | |- forall _, _ => intros
  end.
Example C58_ex : wf_pkt p_ex /\
  enc_pkt p_ex = [12; 0;7; 0;4; 9;16;1;1;  1;0xd3;0;18; 10;0;0;1; 5; 1;44; 0;5; 5;16;2;7;8;
                  2;3;0;31; 0;0; 2;0xc8; 2;10;1; 1;9; 1;2; 32;24; 0;12; 6;0x14;4;1;2;3;4; 3;0x50;1;1;7] /\
  exists tr m', handle_packet (fun _ => {| a_res := OKAY; a_dnf := false; a_drops := [] |}) (enc_pkt p_ex) (fun _ => true) true
      [lis 1 0 false] [lis 2 1 false; lis 3 2 true] {| m_n := O; m_tlv := 0; m_addr := 0 |} = Ok (OKAY, tr, m') /\ zlen tr = 14.
Proof.
  split; [unfold wf_pkt; cbn [p_ex wp_seqno wp_tlvs wp_msgs]; repeat (wf_step || (unfold wf_msg, wf_block, wf_tlv; cbn -[enc_pkt enc_msg flat_map msg_size zlen]; wf_step))|].
  split; [vm_compute; reflexivity|]. do 2 eexists. split; vm_compute; reflexivity.
Qed.

Print Assumptions C58_packets_understood.
Print Assumptions C58_nothing_missed.
