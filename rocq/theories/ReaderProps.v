(** RFC 5444 reader properties (C38, C39, C40, C43, C44, C45, C54, C55). *)
From Verif Require Import Base BitsModel NetaddrModel ReaderModel ReadDispModel ReaderSpec ReaderProofs ReadDispProofs ReadTlvProofs ReadMsgProofs.

Section Props.
Context (cb : list event -> answer) (alloc : nat -> bool) (fwd : bool) (pkt : bytes) (B : all_bytes pkt).

(** C38 (partial): whatever is received, whatever consumers are registered and
    whatever they answer, whatever allocation fails: no undefined operation
    but the three known ones.  Missing: those three (see the refutations). *)
Theorem C38_reader_safe_partial pcons mcons m f :
  handle_packet cb pkt alloc fwd pcons mcons m = Bad f -> known_fault pkt f.
Proof.
  intros E. pose proof (handle_packet_wp cb alloc pkt B fwd pcons mcons m) as W. rewrite E in W. exact W.
Qed.

(** C38: everything shown to consumers lies inside of the packet *)
Theorem C38_callbacks_see_packet_bytes pcons mcons m res tr m' :
  handle_packet cb pkt alloc fwd pcons mcons m = Ok (res, tr, m') -> Forall (event_in 0 (zlen pkt)) tr.
Proof.
  intros E. pose proof (handle_packet_wp cb alloc pkt B fwd pcons mcons m) as W. rewrite E in W. apply W.
Qed.

(** C39: parsing terminates *)
Theorem C39_parsing_terminates pcons mcons m : handle_packet cb pkt alloc fwd pcons mcons m <> Bad F_fuel.
Proof. intros E. apply (C38_reader_safe_partial _ _ _ _ E). Qed.

(** C39: an accepted packet that no consumer has dropped is cut into messages
    without gaps, each as long as its size field *)
Theorem C39_messages_partition_the_packet pcons mcons m tr m' :
  (forall h, a_res (cb h) <> DROP_PACKET) ->
  handle_packet cb pkt alloc fwd pcons mcons m = Ok (OKAY, tr, m') ->
  exists start l, 1 <= start <= zlen pkt /\ partitioned pkt start (zlen pkt) l.
Proof.
  intros N E. pose proof (handle_packet_wp cb alloc pkt B fwd pcons mcons m) as W. rewrite E in W. apply W; auto.
Qed.

(** C54: all TLV and address block entries are given back, also when an
    allocation fails or a callback stops the packet *)
Theorem C54_reader_memory_balanced pcons mcons m res tr m' :
  handle_packet cb pkt alloc fwd pcons mcons m = Ok (res, tr, m') -> m_tlv m' = m_tlv m /\ m_addr m' = m_addr m.
Proof.
  intros E. pose proof (handle_packet_wp cb alloc pkt B fwd pcons mcons m) as W. rewrite E in W. destruct W as (_ & W1 & W2 & _). auto.
Qed.

(** C40 (partial): the TLVs of an accepted message, those of its address blocks
    and the address blocks lie inside of the message.  Missing: inside of their TLV block (refuted below). *)
Theorem C40_tlvs_stay_inside_message_partial start eob m msg m' : 0 <= start <= eob -> eob <= zlen pkt ->
  parse_message alloc pkt start eob m = Ok (OKAY, msg, m') ->
  let hi := start + mh_size (ms_hdr msg) in
  hi <= eob /\ Forall (tlv_in start hi) (ms_tlvs msg) /\ Forall (ablock_in start hi) (ms_addrs msg).
Proof.
  intros H1 H2 E. pose proof (parse_message_wp alloc pkt B start eob m H1 H2) as W. rewrite E in W. cbn [wp] in W.
  destruct W as (_ & _ & _ & _ & W). destruct (W eq_refl) as (_ & W1 & _ & _ & W2 & W3). cbn zeta.
  split; [exact W1|]. split.
  - eapply Forall_impl; [|exact W2]. intros t [T _]. exact T.
  - eapply Forall_impl; [|exact W3]. intros t [T _]. exact T.
Qed.

(** C43: the block callback (or the one for failed constraints) is called with
    exactly the TLVs each entry asked for, and the failed flag is the one of
    [violated_code]: a mandatory TLV is missing, a length is illegal, or (this
    is not documented) a TLV of a mandatory type does not concern the address. *)
Theorem C43_constraint_as_computed ptr eob ac m p tlvs m' c es x idx st res tlvs' st' :
  0 <= ptr -> eob <= zlen pkt -> is_u8 ac ->
  parse_tlvblock alloc pkt ptr eob ac m = Ok (OKAY, p, tlvs, m') ->
  Forall ce8 es -> ForallOrdPairs disjoint es -> c_entries c = sort_entries es ->
  (c_tlv c = true -> forall t tr, a_res (cb (EvTlv (c_id c) x t :: tr)) = OKAY) ->
  schedule_tlvblock cb pkt c x tlvs idx st = Ok (res, tlvs', st') ->
  let failed := existsb (violated_code idx tlvs) (c_entries c) in
  exists evs views,
    d_trace st' = (if if failed then c_failed c else c_block c then [EvBlock (c_id c) x failed views] else []) ++ evs ++ d_trace st /\
    Forall (fun e => exists t, e = EvTlv (c_id c) x t) evs /\
    map fst views = map (chain idx tlvs) (c_entries c).
Proof.
  intros H0 H1 H2 EP E8 ED EC Q ES. destruct (parse_tlvblock_sorted _ _ _ _ _ _ _ _ _ _ B H0 H1 H2 EP) as [T8 TS].
  destruct (sort_entries_ok es E8 ED) as [S1 S2]. rewrite <- EC in S1, S2.
  destruct (schedule_char cb pkt c x idx Q tlvs st res tlvs' st' T8 S1 TS S2 ES) as (evs & views & X1 & X2 & X3 & _).
  exists evs, views. auto.
Qed.

(** C43 (partial): the same with the documented rule, if every TLV of a mandatory
    type concerns the index; this holds for message and packet TLVs without
    index fields.  Missing: address TLVs of a mandatory type that exist for
    some addresses only (refuted below). *)
Theorem C43_mandatory_constraint_partial ptr eob ac m p tlvs m' c es x idx st res tlvs' st' :
  0 <= ptr -> eob <= zlen pkt -> is_u8 ac ->
  parse_tlvblock alloc pkt ptr eob ac m = Ok (OKAY, p, tlvs, m') ->
  Forall ce8 es -> ForallOrdPairs disjoint es -> c_entries c = sort_entries es ->
  (c_tlv c = true -> forall t tr, a_res (cb (EvTlv (c_id c) x t :: tr)) = OKAY) ->
  Forall (fun e => ce_mandatory e = true -> Forall (fun t => wants e t = true -> covers idx t = true) tlvs) (c_entries c) ->
  schedule_tlvblock cb pkt c x tlvs idx st = Ok (res, tlvs', st') ->
  let failed := existsb (violated idx tlvs) (c_entries c) in
  exists evs views,
    d_trace st' = (if if failed then c_failed c else c_block c then [EvBlock (c_id c) x failed views] else []) ++ evs ++ d_trace st /\
    Forall (fun e => exists t, e = EvTlv (c_id c) x t) evs /\
    map fst views = map (chain idx tlvs) (c_entries c).
Proof.
  intros H0 H1 H2 EP E8 ED EC Q F ES.
  assert (existsb (violated idx tlvs) (c_entries c) = existsb (violated_code idx tlvs) (c_entries c)) as EQ.
  { clear - F. induction F as [|e l H _ IH]; cbn [existsb]; auto. rewrite IH. f_equal. symmetry. now apply violated_same. }
  cbn zeta. rewrite EQ. exact (C43_constraint_as_computed _ _ _ _ _ _ _ _ _ _ _ _ _ _ _ H0 H1 H2 EP E8 ED EC Q ES).
Qed.

(** C43: a violated constraint never goes unnoticed: the normal block callback
    is not called *)
Theorem C43_violation_always_reported ptr eob ac m p tlvs m' c es x idx st res tlvs' st' :
  0 <= ptr -> eob <= zlen pkt -> is_u8 ac ->
  parse_tlvblock alloc pkt ptr eob ac m = Ok (OKAY, p, tlvs, m') ->
  Forall ce8 es -> ForallOrdPairs disjoint es -> c_entries c = sort_entries es ->
  (c_tlv c = true -> forall t tr, a_res (cb (EvTlv (c_id c) x t :: tr)) = OKAY) ->
  Exists (fun e => violated idx tlvs e = true) (c_entries c) ->
  schedule_tlvblock cb pkt c x tlvs idx st = Ok (res, tlvs', st') ->
  exists evs views,
    d_trace st' = (if c_failed c then [EvBlock (c_id c) x true views] else []) ++ evs ++ d_trace st /\
    Forall (fun e => exists t, e = EvTlv (c_id c) x t) evs.
Proof.
  intros H0 H1 H2 EP E8 ED EC Q F ES.
  destruct (C43_constraint_as_computed _ _ _ _ _ _ _ _ _ _ _ _ _ _ _ H0 H1 H2 EP E8 ED EC Q ES) as (evs & views & X1 & X2 & _).
  assert (existsb (violated_code idx tlvs) (c_entries c) = true) as EQ.
  { apply Exists_exists in F as (e & He & F). apply existsb_exists. exists e. split; auto. now apply violated_noticed. }
  rewrite EQ in X1. eauto.
Qed.

(** C55 (partial): without TLV entries the consumer gets exactly one callback for
    every TLV of the index, in the order of the types.  Missing: consumers
    with entries (refuted below). *)
Theorem C55_every_tlv_once_partial ptr eob ac m p tlvs m' c x idx st res tlvs' st' :
  0 <= ptr -> eob <= zlen pkt -> is_u8 ac ->
  parse_tlvblock alloc pkt ptr eob ac m = Ok (OKAY, p, tlvs, m') ->
  c_entries c = [] -> c_tlv c = true -> c_block c = false ->
  (forall t tr, a_res (cb (EvTlv (c_id c) x t :: tr)) = OKAY) ->
  schedule_tlvblock cb pkt c x tlvs idx st = Ok (res, tlvs', st') ->
  d_trace st' = rev (map (fun t => EvTlv (c_id c) x (shown idx t)) (filter (covers idx) tlvs)) ++ d_trace st.
Proof.
  intros H0 H1 H2 EP EC ET EB Q ES. destruct (parse_tlvblock_sorted _ _ _ _ _ _ _ _ _ _ B H0 H1 H2 EP) as [T8 TS].
  destruct (schedule_char cb pkt c x idx ltac:(intros; apply Q) tlvs st res tlvs' st' T8) as (evs & views & X1 & X2 & X3 & X4); auto;
    try (rewrite EC; cbn; auto; fail).
  rewrite EC in X1. cbn [existsb] in X1. rewrite EB in X1. rewrite X1, (X4 EC). cbn [app]. f_equal. f_equal.
  clear -ET. induction tlvs as [|t l IH]; cbn; auto. unfold tlv_event at 1. rewrite ET. cbn [andb].
  destruct (covers idx t); cbn; now rewrite IH.
Qed.

(** C45: the start and end callbacks of a message: the consumers for the message
    type are grouped by order; all start callbacks of a group in the order of
    the tree, then its end callbacks in the opposite order, then the next
    group.  If callbacks drop the message, the remaining consumers are left
    out.  C44 (first half): the message is given to the forwarder only if the
    hop limit is at least two and no callback of the message has forbidden it. *)
Theorem C45_start_end_callbacks all seq start eob st m res p st' m' :
  0 <= start <= eob -> eob <= zlen pkt -> orders_sorted all ->
  handle_message cb pkt alloc fwd all seq start eob st m = Ok (res, p, st', m') ->
  d_trace st' = d_trace st \/
  exists ty new k gs f,
    zget pkt start = Some ty /\ d_trace st' = f ++ new ++ d_trace st /\
    brackets new = flat_map group_brackets gs /\
    concat gs = filter (fun c => (c_default c || (c_msgid c =? ty)) && negb (c_addrblock c)) (firstn k all) /\
    Forall same_order gs /\ groups_ordered gs /\
    (f = [] \/ exists x len, f = [EvForward x start len]).
Proof.
  intros H1 H2 SO E. destruct (handle_message_at _ _ _ _ _ _ _ _ _ _ _ _ _ _ B H1 H2 SO E) as [X|X]; [auto|right].
  destruct X as (ty & new & k & gs & f & X1 & X2 & X3 & X4 & X5 & X6 & X7 & _ & _).
  exists ty, new, k, gs, f. auto 10.
Qed.

(** C45: with sensible answers (see [polite]; in particular not negative) the end
    callbacks get the right dropped flag, after a drop nothing but end
    callbacks happens, and if nobody drops the message every consumer for
    its type is served.  C44: it is given to the forwarder exactly if nobody
    dropped it (or only "but forward"), nobody forbade it and the hop limit
    is at least two. *)
Theorem C45_dropped_flag_and_forwarding all seq start eob st m res p st' m' :
  (forall e tr, polite e (a_res (cb (e :: tr)))) ->
  0 <= start <= eob -> eob <= zlen pkt -> orders_sorted all ->
  handle_message cb pkt alloc fwd all seq start eob st m = Ok (res, p, st', m') ->
  let old := d_trace st in
  d_trace st' = old \/
  exists ty new gs f,
    zget pkt start = Some ty /\ d_trace st' = f ++ new ++ old /\ brackets new = flat_map group_brackets gs /\
    protocol cb old new /\
    (max_answer cb old new < 3 ->
      concat gs = filter (fun c => (c_default c || (c_msgid c =? ty)) && negb (c_addrblock c)) all) /\
    (f = [] \/ exists x len, f = [EvForward x start len]) /\
    (f <> [] <-> fwd = true /\ forbidden cb old new = false /\ max_answer cb old new <= 3 /\
                 exists h, msg_hop_limit pkt start = Some h /\ 1 < h).
Proof.
  intros P H1 H2 SO E. destruct (handle_message_at _ _ _ _ _ _ _ _ _ _ _ _ _ _ B H1 H2 SO E) as [X|X]; [auto|right].
  destruct X as (ty & new & k & gs & f & X1 & X2 & X3 & X4 & X5 & X6 & X7 & _ & _ & X8). destruct (X8 P) as (Y1 & Y2 & Y3).
  exists ty, new, gs, f. auto 10.
Qed.

(** C44: messages without hop limit, or with a hop limit of 0 or 1, and
    messages for which a callback set the do-not-forward flag are not forwarded *)
Theorem C44_not_forwarded_below_hop_limit_two all seq start eob st m res p st' m' :
  0 <= start <= eob -> eob <= zlen pkt -> orders_sorted all ->
  handle_message cb pkt alloc fwd all seq start eob st m = Ok (res, p, st', m') ->
  let old := d_trace st in
  d_trace st' = old \/
  exists new f, d_trace st' = f ++ new ++ old /\ Forall (fun e => match e with EvForward _ _ _ => False | _ => True end) new /\
    (f <> [] -> fwd = true /\ forbidden cb old new = false /\ exists h, msg_hop_limit pkt start = Some h /\ 1 < h).
Proof.
  intros H1 H2 SO E. destruct (handle_message_at _ _ _ _ _ _ _ _ _ _ _ _ _ _ B H1 H2 SO E) as [X|X]; [auto|right].
  destruct X as (ty & new & k & gs & f & X1 & X2 & X3 & X4 & X5 & X6 & X7 & X8 & X9 & _).
  exists new, f. auto.
Qed.
End Props.

(** the trees of consumers built by registration are sorted *)
Lemma c_insert_sorted c l : orders_sorted l -> orders_sorted (c_insert c l).
Proof.
  induction l as [|y l IH]; cbn [c_insert]; [intros; split; cbn; auto|]. intros [H1 H2].
  assert (forall P : consumer -> Prop, P c -> Forall P l -> Forall P (c_insert c l)) as FI.
  { clear. intros P Hc F. induction F as [|z l Hz F IH]; cbn; auto. destruct (_ <? 0); auto. }
  unfold c_cmp. destruct (Z.gtb_spec (c_order c) (c_order y)).
  { cbn. split; auto. apply FI; auto. lia. }
  destruct (Z.ltb_spec (c_order c) (c_order y)).
  { cbn. split; auto. constructor; [lia|]. eapply Forall_impl; [|exact H1]. cbn. intros; lia. }
  assert (c_order c = c_order y) as EQ by lia.
  assert (orders_sorted (y :: c_insert c l) /\ orders_sorted (c :: y :: l)) as [O1 O2].
  { split; cbn.
    - split; [apply FI; [lia|exact H1] | apply IH, H2].
    - split; [|auto]. constructor; [lia|]. eapply Forall_impl; [|exact H1]. cbn. intros; lia. }
  match goal with |- context [if (if ?a then _ else if ?b then _ else _) <? 0 then _ else _] => destruct a, b end; assumption.
Qed.
Theorem C45_registered_consumers_are_sorted cs : orders_sorted (fold_left (fun l ce => add_consumer (fst ce) (snd ce) l) cs []).
Proof.
  assert (forall l, orders_sorted l -> orders_sorted (fold_left (fun l ce => add_consumer (fst ce) (snd ce) l) cs l)) as G.
  { induction cs as [|c cs IH]; intros l H; cbn [fold_left]; auto. apply IH. apply c_insert_sorted, H. }
  apply G. exact I.
Qed.

(** C45: every message consumer that has both callbacks: its starts and ends are well nested *)
Theorem C45_groups_are_balanced gs : Forall (Forall (fun c => c_start c = true /\ c_end c = true)) gs ->
  balanced (flat_map group_brackets gs).
Proof.
  intros F. induction F as [|g gs Hg _ IH]; [constructor|]. cbn [flat_map]. unfold group_brackets at 1.
  assert (filter c_start g = g /\ filter c_end g = g) as [-> ->].
  { induction Hg as [|c g [H1 H2] _ [IH1 IH2]]; cbn; auto. rewrite H1, H2, IH1, IH2. auto. }
  clear Hg. revert IH. generalize (flat_map group_brackets gs). clear gs.
  induction g as [|c g IHg]; intros r Hr; [exact Hr|].
  cbn [map rev app]. rewrite map_app. cbn [map]. rewrite !app_assoc, <- !app_assoc. cbn [app].
  rewrite app_assoc.
  assert (balanced (map (fun c => (true, c_id c)) g ++ map (fun c => (false, c_id c)) (rev g))) as X.
  { specialize (IHg [] ltac:(constructor)). now rewrite app_nil_r in IHg. }
  constructor; auto.
Qed.

(** ** Refutations *)
Definition quiet : list event -> answer := fun _ => {| a_res := OKAY; a_dnf := false; a_drops := [] |}.
Definition mem0 : mem := {| m_n := O; m_tlv := 0; m_addr := 0 |}.
Definition cons0 (id : Z) (ab : bool) (es : list centry) : consumer :=
  {| c_id := id; c_order := 0; c_default := true; c_msgid := 0; c_addrblock := ab; c_entries := es;
     c_start := true; c_end := true; c_tlv := true; c_block := true; c_failed := true |}.
Definition entry0 (ty : Z) (mand : bool) : centry :=
  {| ce_mandatory := mand; ce_type := ty; ce_ext := 0; ce_match_ext := false; ce_min := 0; ce_max := 0;
     ce_match_len := false; ce_copy := false |}.

Lemma bytes_by l : forallb (fun b => (0 <=? b) && (b <? 256)) l = true -> all_bytes l.
Proof.
  intros H. apply Forall_forall. intros b Hb. rewrite forallb_forall in H. specialize (H b Hb).
  apply andb_true_iff in H as [H1 H2]. unfold is_u8. lia.
Qed.

(** C38 does not hold for all packets: division by zero *)
Theorem C38_multivalue_refuted : exists pkt t, all_bytes pkt /\
  handle_packet quiet pkt (fun _ => true) true [] [] mem0 = Bad (F_div0 t).
Proof.
  exists [0; 1;0x03;0;10; 0;4; 5;0x14;1;7].
  eexists. split; [apply bytes_by; reflexivity | vm_compute; reflexivity].
Qed.
(** C38: 60 bytes of the packet are written into a 16 byte address *)
Theorem C38_zerotail_refuted : exists pkt, all_bytes pkt /\
  handle_packet quiet pkt (fun _ => true) true [] [cons0 1 false []; cons0 2 true []] mem0 = Bad (F_mid 0 60).
Proof.
  exists ([0; 1;0x03;0;71; 0;0; 1;0x20;200] ++ repeat 9 60 ++ [0;0]).
  split; [apply bytes_by; vm_compute; reflexivity | vm_compute; reflexivity].
Qed.
(** C38: head and tail longer than the address: 254 bytes are copied to offset 3 *)
Theorem C38_headtail_refuted : exists pkt, all_bytes pkt /\
  handle_packet quiet pkt (fun _ => true) true [] [cons0 1 false []; cons0 2 true []] mem0 = Bad (F_mid 3 254).
Proof.
  exists ([0; 1;0x03;1;16; 0;0; 1;0xc0;3;1;2;3;3;4;5;6] ++ repeat 9 254 ++ [0;0]).
  split; [apply bytes_by; vm_compute; reflexivity | vm_compute; reflexivity].
Qed.
(** C38: the prefix length is read from behind the end of the packet *)
Theorem C38_single_prefix_refuted : exists pkt, all_bytes pkt /\
  handle_packet quiet pkt (fun _ => true) true [] [] mem0 = Bad (F_plen (zlen pkt)).
Proof.
  exists [0; 1;0x03;0;12; 0;0; 1;0x10;1;2;3;4].
  split; [apply bytes_by; reflexivity | vm_compute; reflexivity].
Qed.

(** C40: a TLV block of three bytes (offsets 7 to 9) is accepted although the
    value of its TLV is the byte behind it *)
Theorem C40_tlvblock_overrun_refuted : exists pkt msg m' t, all_bytes pkt /\
  parse_message (fun _ => true) pkt 1 (zlen pkt) mem0 = Ok (OKAY, msg, m') /\
  zget pkt 5 = Some 0 /\ zget pkt 6 = Some 3 /\ In t (ms_tlvs msg) /\ t_value t = Some 10 /\ t_length t = 1 /\ ~ 10 + 1 <= 7 + 3.
Proof.
  exists [0; 1;0x03;0;10; 0;3; 5;0x10;1;7]. do 3 eexists.
  split; [apply bytes_by; reflexivity|].
  split; [vm_compute; reflexivity|]. cbn. split; [reflexivity|]. split; [reflexivity|]. split; [left; reflexivity|]. cbn.
  split; [reflexivity|]. split; [reflexivity|lia].
Qed.

(** C43: both addresses carry a TLV of the mandatory type, and the entry gets
    it, but the constraint is reported as failed for both of them *)
Theorem C43_mandatory_refuted : exists pkt tr m', all_bytes pkt /\
  handle_packet quiet pkt (fun _ => true) true [] [cons0 1 false []; cons0 2 true [entry0 5 true]] mem0 = Ok (OKAY, tr, m') /\
  flat_map (fun e => match e with EvBlock 2 x failed v => [(x_index x, failed, map (fun v => zlen (fst v)) v)] | _ => [] end) (rev tr)
    = [(0, true, [1]); (1, true, [1])].
Proof.
  exists [0; 1;0x03;0;28; 0;0; 2;0;1;2;3;4;5;6;7;8; 0;10; 5;0x50;0;1;7; 5;0x50;1;1;9]. do 2 eexists.
  split; [apply bytes_by; reflexivity|]. split; vm_compute; reflexivity.
Qed.

(** C55: one TLV in the message, but the callback for it happens twice, since
    the consumer also has an entry for a TLV type that is not in the message *)
Theorem C55_tlv_callback_twice_refuted : exists pkt tr m', all_bytes pkt /\
  handle_packet quiet pkt (fun _ => true) true [] [cons0 1 false [entry0 3 false]] mem0 = Ok (OKAY, tr, m') /\
  zlen (filter (fun e => match e with EvTlv _ _ _ => true | _ => false end) tr) = 2.
Proof.
  exists [0; 1;0x03;0;10; 0;4; 5;0x10;1;7]. do 2 eexists.
  split; [apply bytes_by; reflexivity|]. split; vm_compute; reflexivity.
Qed.

(** C45: a start callback reports an error, its end callback is told that the
    message was dropped, but the message is forwarded and later consumers are served *)
Theorem C45_error_answer_refuted : exists cb pkt tr m', all_bytes pkt /\
  handle_packet cb pkt (fun _ => true) true [] [cons0 1 false []] mem0 = Ok (OKAY, tr, m') /\
  (exists x x' x'' a b, tr = [EvForward x a b; EvEnd 1 x' true; EvStart 1 x''] /\ a_res (cb [EvStart 1 x'']) = -6).
Proof.
  exists (fun l => {| a_res := match l with EvStart _ _ :: _ => -6 | _ => OKAY end; a_dnf := false; a_drops := [] |}),
    [0; 1;0x43;0;11; 5; 0;4; 5;0x10;1;7]. do 2 eexists.
  split; [apply bytes_by; reflexivity|]. split; [vm_compute; reflexivity|]. do 5 eexists. split; reflexivity.
Qed.

(** ** Examples *)
(** two messages, the second with an address block: accepted, nothing dropped *)
Definition pkt_ex : bytes :=
  [0x08; 0;7;  1;0x43;0;11; 5; 0;4; 5;0x10;1;7;  2;0x03;0;30; 0;0; 2;0;1;2;3;4;5;6;7;8; 0;12; 5;0x50;0;1;7; 6;0x34;0;1;2;8;9].
Definition cons_ex : list consumer := fold_left (fun l ce => add_consumer (fst ce) (snd ce) l)
  [(cons0 1 false [], [entry0 5 false; entry0 3 false]); (cons0 2 true [], [entry0 6 true]); (cons0 3 false [], [])] [].
Example C38_ex : all_bytes pkt_ex /\ orders_sorted cons_ex /\
  (forall h, a_res (quiet h) <> DROP_PACKET) /\ (forall e tr, polite e (a_res (quiet (e :: tr)))).
Proof.
  split; [apply bytes_by; reflexivity|].
  split; [apply C45_registered_consumers_are_sorted|].
  split; [intros h; cbn; unfold DROP_PACKET, OKAY; lia | intros; left; reflexivity].
Qed.
Definition brief (o : outcome (Z * list event * mem)) : option (Z * list (Z * Z * Z * Z)) :=
  match o with
  | Ok (r, tr, _) => Some (r, map (fun e =>
      match e with
      | EvStart c x => (1, c, 0, 0)
      | EvEnd c x f => (2, c, if f then 1 else 0, 0)
      | EvTlv c x t => (3, c, x_index x, t_type t)
      | EvBlock c x f v => (4, c, x_index x, if f then 1 else 0)
      | EvForward _ s l => (5, s, l, 0)
      end) (rev tr))
  | Bad _ => None
  end.
(** what the consumers see of it; the first message has a hop limit of 5 and is forwarded *)
Example C39_ex : brief (handle_packet quiet pkt_ex (fun _ => true) true [] cons_ex mem0) =
  Some (0, [(1,1,0,0); (3,1,0,5); (3,1,0,5); (4,1,0,0); (1,3,0,0); (3,3,0,5); (4,3,0,0); (2,3,0,0); (2,1,0,0); (5,3,11,0);
            (1,1,0,0); (4,1,0,0); (1,3,0,0); (4,3,0,0); (1,2,0,0); (3,2,0,5); (3,2,0,6); (4,2,0,0); (2,2,0,0);
            (1,2,0,0); (3,2,1,6); (4,2,1,0); (2,2,0,0); (2,3,0,0); (2,1,0,0)]).
Proof. vm_compute. reflexivity. Qed.
(** a failing allocation, and a callback that drops the packet *)
Example C54_ex : exists tr m', handle_packet quiet pkt_ex (fun n => negb (Nat.eqb n 2)) true [] cons_ex mem0 = Ok (-6, tr, m') /\ m_n m' = 3%nat.
Proof. do 2 eexists. split; vm_compute; reflexivity. Qed.
Example C54_ex_drop : brief (handle_packet
    (fun l => {| a_res := match l with EvBlock 2 _ _ _ :: _ => DROP_PACKET | _ => OKAY end; a_dnf := false; a_drops := [] |})
    pkt_ex (fun _ => true) true [] cons_ex mem0) =
  Some (0, [(1,1,0,0); (3,1,0,5); (3,1,0,5); (4,1,0,0); (1,3,0,0); (3,3,0,5); (4,3,0,0); (2,3,0,0); (2,1,0,0); (5,3,11,0);
            (1,1,0,0); (4,1,0,0); (1,3,0,0); (4,3,0,0); (1,2,0,0); (3,2,0,5); (3,2,0,6); (4,2,0,0); (2,2,1,0);
            (2,3,1,0); (2,1,1,0)]).
Proof. vm_compute. reflexivity. Qed.
(** the hypotheses of the C43 and C55 theorems *)
Definition blk_ex : bytes := [0;12; 5;0x50;0;1;7; 6;0x34;0;1;2;8;9].
Definition x_ex : ctx := {| x_kind := KAddress; x_pktseq := None; x_hdr := None; x_addr := {| na_addr := repeat 0 16; na_type := 0; na_plen := 0 |}; x_index := 1; x_block := None |}.
Example C43_ex : exists p tlvs m' c, all_bytes blk_ex /\
  parse_tlvblock (fun _ => true) blk_ex 0 14 2 mem0 = Ok (OKAY, p, tlvs, m') /\ zlen tlvs = 2 /\
  Forall ce8 [entry0 6 true; entry0 3 true] /\ ForallOrdPairs disjoint [entry0 6 true; entry0 3 true] /\
  c_entries c = sort_entries [entry0 6 true; entry0 3 true] /\
  Exists (fun e => violated 1 tlvs e = true) (c_entries c) /\
  exists res tlvs' st', schedule_tlvblock quiet blk_ex c x_ex tlvs 1 {| d_trace := []; d_dnf := false; d_kind := KAddress |} = Ok (res, tlvs', st').
Proof.
  do 3 eexists. exists (cons0 2 true (sort_entries [entry0 6 true; entry0 3 true])).
  split; [apply bytes_by; reflexivity|]. split; [vm_compute; reflexivity|]. split; [reflexivity|].
  split; [repeat constructor; cbn; unfold is_u8; lia|].
  split; [repeat constructor; cbn; lia|]. split; [reflexivity|].
  split; [constructor; vm_compute; reflexivity|]. do 3 eexists. vm_compute. reflexivity.
Qed.

Print Assumptions C38_reader_safe_partial.
Print Assumptions C38_callbacks_see_packet_bytes.
Print Assumptions C38_multivalue_refuted.
Print Assumptions C38_zerotail_refuted.
Print Assumptions C38_headtail_refuted.
Print Assumptions C38_single_prefix_refuted.
Print Assumptions C39_parsing_terminates.
Print Assumptions C39_messages_partition_the_packet.
Print Assumptions C40_tlvs_stay_inside_message_partial.
Print Assumptions C40_tlvblock_overrun_refuted.
Print Assumptions C43_constraint_as_computed.
Print Assumptions C43_mandatory_constraint_partial.
Print Assumptions C43_violation_always_reported.
Print Assumptions C43_mandatory_refuted.
Print Assumptions C44_not_forwarded_below_hop_limit_two.
Print Assumptions C45_start_end_callbacks.
Print Assumptions C45_dropped_flag_and_forwarding.
Print Assumptions C45_registered_consumers_are_sorted.
Print Assumptions C45_groups_are_balanced.
Print Assumptions C45_error_answer_refuted.
Print Assumptions C54_reader_memory_balanced.
Print Assumptions C55_every_tlv_once_partial.
Print Assumptions C55_tlv_callback_twice_refuted.
