(** Model of the TLV writer (src/librfc5444/rfc5444_tlv_writer.c) and of the
    packet generator (src/librfc5444/rfc5444_pkt_generator.c).

    Buffers are byte lists; leaving a buffer is a fault ([None]).  size_t is a
    64 bit number and wraps.  A TLV value is a byte list, its length is the
    argument [length]; an empty value is the pair (NULL, 0). *)
From Verif Require Import Base BitsModel.

(** struct rfc5444_tlv_writer_data
    (include/oonf/librfc5444/rfc5444_tlv_writer.h:56-74) *)
Record twd := Twd {
  tw_buf : bytes; tw_header : Z; tw_added : Z; tw_allocated : Z; tw_set : Z; tw_max : Z }.

(** enum rfc5444_result (include/oonf/librfc5444/rfc5444_context.h) *)
Definition W_OKAY : Z := 0.
Definition W_MTU_TOO_SMALL : Z := -12.

(** _rfc5444_tlv_writer_init (rfc5444_tlv_writer.c:65-77) *)
Definition tlv_init (buf : bytes) (max : Z) : twd := Twd buf 0 0 0 0 max.

(** _calc_tlv_size (rfc5444_tlv_writer.c:164-180) *)
Definition calc_tlv_size (has_exttype : bool) (length : Z) : Z :=
  let s := if has_exttype then 3 else 2 in
  let s := u64 (s + length) in
  if length >? 255 then u64 (s + 2) else if length >? 0 then u64 (s + 1) else s.

(** _write_tlv (rfc5444_tlv_writer.c:192-232): the bytes which are written at
    [ptr], one after the other *)
Definition tlv_flag_byte (exttype idx1 idx2 length : Z) : Z :=
  let flags := if exttype >? 0 then 0x80 else 0 in
  let flags := if idx1 =? idx2 then Z.lor flags 0x40
               else if (idx1 >? 0) || (idx2 <? 255) then Z.lor flags 0x20 else flags in
  let flags := if length >? 255 then Z.lor flags 0x08 else flags in
  if length >? 0 then Z.lor flags 0x10 else flags.
Definition tlv_bytes (type exttype idx1 idx2 : Z) (value : bytes) : bytes :=
  let length := zlen value in
  [type; tlv_flag_byte exttype idx1 idx2 length]
  ++ (if negb (exttype =? 0) then [exttype] else [])
  ++ (if (idx1 >? 0) || (idx2 <? 255) then idx1 :: (if negb (idx1 =? idx2) then [idx2] else []) else [])
  ++ (if length >? 255 then [u8 (length / 256)] else [])
  ++ (if length >? 0 then Z.land length 255 :: value else []).

(** _rfc5444_tlv_writer_add (rfc5444_tlv_writer.c:89-105),
    _rfc5444_tlv_writer_allocate (115-128), _rfc5444_tlv_writer_set (141-157) *)
Definition tlv_add (d : twd) (type exttype : Z) (value : bytes) : option (Z * twd) :=
  let s := calc_tlv_size (negb (exttype =? 0)) (zlen value) in
  if u64 (tw_header d + tw_added d + tw_allocated d + s) >? tw_max d then Some (W_MTU_TOO_SMALL, d)
  else
    match copy_in (tw_buf d) (tw_header d + tw_added d) (tlv_bytes type exttype 0 255 value) with
    | None => None
    | Some b => Some (W_OKAY, Twd b (tw_header d) (u64 (tw_added d + s)) (tw_allocated d) (tw_set d) (tw_max d))
    end.
Definition tlv_allocate (d : twd) (has_exttype : bool) (length : Z) : option (Z * twd) :=
  let s := calc_tlv_size has_exttype length in
  if u64 (tw_header d + tw_added d + tw_allocated d + s) >? tw_max d then Some (W_MTU_TOO_SMALL, d)
  else Some (W_OKAY, Twd (tw_buf d) (tw_header d) (tw_added d) (u64 (tw_allocated d + s)) (tw_set d) (tw_max d)).
Definition tlv_set (d : twd) (type exttype : Z) (value : bytes) : option (Z * twd) :=
  let s := calc_tlv_size (negb (exttype =? 0)) (zlen value) in
  if u64 (tw_allocated d - tw_set d) <? s then Some (W_MTU_TOO_SMALL, d)
  else
    match copy_in (tw_buf d) (tw_header d + tw_added d + tw_set d) (tlv_bytes type exttype 0 255 value) with
    | None => None
    | Some b => Some (W_OKAY, Twd b (tw_header d) (tw_added d) (tw_allocated d) (u64 (tw_set d + s)) (tw_max d))
    end.

(** The calls of a content provider. *)
Inductive twop :=
| TAdd (type exttype : Z) (value : bytes)
| TAllocate (has_exttype : bool) (length : Z)
| TSet (type exttype : Z) (value : bytes).
Definition tw_step (d : twd) (o : twop) : option (Z * twd) :=
  match o with
  | TAdd t x v => tlv_add d t x v
  | TAllocate h l => tlv_allocate d h l
  | TSet t x v => tlv_set d t x v
  end.
(** results of the calls and final state *)
Fixpoint tw_run (d : twd) (ops : list twop) : option (list Z * twd) :=
  match ops with
  | [] => Some ([], d)
  | o :: ops' =>
    match tw_step d o with
    | None => None
    | Some (r, d') => match tw_run d' ops' with None => None | Some (rs, d'') => Some (r :: rs, d'') end
    end
  end.

(** * Packets *)

(** struct rfc5444_writer_target (include/oonf/librfc5444/rfc5444_writer.h:235-290)
    during the construction of one packet *)
Record target := Target { tg_pkt : twd; tg_seqno : option Z; tg_msgs : Z }.

(** _rfc5444_writer_begin_packet (rfc5444_pkt_generator.c:62-102) with
    rfc5444_writer_set_pkt_header (276-291): [space] is the sum of
    allocate_space of the matching post-processors, [seqno] the sequence number
    if the header callback asked for one (the number may be set later, which
    does not change the size of the header), [ops] the calls of the packet handlers.  After
    rfc5444_writer_flush _bin_msgs_size is 0. *)
Definition begin_packet (buf : bytes) (packet_size space : Z) (seqno : option Z) (ops : list twop) : option (list Z * target) :=
  let d := tlv_init buf packet_size in
  let header := match seqno with Some _ => 5 | None => 3 end in
  match tw_run (Twd (tw_buf d) header 0 space 0 packet_size) ops with
  | None => None
  | Some (rs, d') => Some (rs, Target d' seqno 0)
  end.

(** Copying a message behind the others (rfc5444_msg_generator.c:1540-1542 and
    1561-1563, 563-567 and 592-593) *)
Definition append_message (t : target) (m : bytes) : option target :=
  let d := tg_pkt t in
  match copy_in (tw_buf d) (tw_header d + tw_added d + tw_allocated d + tg_msgs t) m with
  | None => None
  | Some b => Some (Target (Twd b (tw_header d) (tw_added d) (tw_allocated d) (tw_set d) (tw_max d))
                      (tg_seqno t) (tg_msgs t + zlen m))
  end.
Fixpoint append_messages (t : target) (ms : list bytes) : option target :=
  match ms with
  | [] => Some t
  | m :: ms' => match append_message t m with None => None | Some t' => append_messages t' ms' end
  end.

(** _write_pktheader (rfc5444_pkt_generator.c:315-335): the bytes of the header *)
Definition pkt_header (t : target) : bytes :=
  let len := tw_added (tg_pkt t) + tw_set (tg_pkt t) in
  let f1 := match tg_seqno t with Some _ => 0x08 | None => 0 end in
  let f2 := if len >? 0 then 0x04 else 0 in
  [Z.lor f1 f2] ++ match tg_seqno t with Some s => [u8 (s / 256); Z.land s 255] | None => [] end
  ++ (if len >? 0 then [u8 (len / 256); Z.land len 255] else []).

(** rfc5444_writer_flush (rfc5444_pkt_generator.c:111-202): the bytes given to
    sendPacket, without the action of packet post-processors.  [sets] are the
    calls of the finishPacketTLVs callbacks. *)
Definition flush (t : target) (sets : list twop) : option (list Z * bytes) :=
  match tw_run (tg_pkt t) sets with
  | None => None
  | Some (rs, d) =>
    let t := Target d (tg_seqno t) (tg_msgs t) in
    match copy_in (tw_buf d) 0 (pkt_header t) with
    | None => None
    | Some b =>
      let len := (match tg_seqno t with Some _ => 3 | None => 1 end) + (if tw_added d + tw_set d >? 0 then 2 else 0) in
      match (if tg_msgs t =? 0 then Some b else
             match copy_out b (tw_header d + tw_added d + tw_allocated d) (Z.to_nat (tg_msgs t)) with
             | None => None
             | Some ms => copy_in b (len + tw_added d + tw_set d) ms
             end) with
      | None => None
      | Some b => match copy_out b 0 (Z.to_nat (len + tw_added d + tw_set d + tg_msgs t)) with
                  | None => None
                  | Some p => Some (rs, p)
                  end
      end
    end
  end.

(** * A target over time *)

(** The packet side of a target: the packet size, the space asked for by
    packet post-processors, and for packet number [k] the sequence number and
    the calls of the packet handlers. *)
Record pktcfg := Pktcfg {
  pc_size : Z; pc_space : Z; pc_seqno : Z -> option Z; pc_ops : Z -> list twop; pc_sets : Z -> list twop }.
(** [ts_flushed]: _is_flushed; [ts_sent]: the packets given to sendPacket *)
Record tstate := Tstate { ts_target : target; ts_flushed : bool; ts_sent : list bytes }.

(** rfc5444_writer_register_target (rfc5444_writer.c:535-549): the buffer has
    packet_size bytes and the target starts flushed *)
Definition ts_init (c : pktcfg) (buf : bytes) : tstate := Tstate (Target (Twd buf 0 0 0 0 (pc_size c)) None 0) true [].

(** _rfc5444_writer_begin_packet *)
Definition ts_begin (c : pktcfg) (s : tstate) : option tstate :=
  let k := zlen (ts_sent s) in
  match begin_packet (tw_buf (tg_pkt (ts_target s))) (pc_size c) (pc_space c) (pc_seqno c k) (pc_ops c k) with
  | None => None
  | Some (_, t) => Some (Tstate t false (ts_sent s))
  end.
(** rfc5444_writer_flush with force = false: nothing is done for a flushed
    target.  The buffer keeps the packet (what it holds does not matter: the
    next packet overwrites it; the model leaves the bytes before the flush). *)
Definition ts_flush (c : pktcfg) (s : tstate) : option tstate :=
  if ts_flushed s then Some s
  else match flush (ts_target s) (pc_sets c (zlen (ts_sent s))) with
       | None => None
       | Some (_, p) => Some (Tstate (Target (tg_pkt (ts_target s)) (tg_seqno (ts_target s)) 0) true (ts_sent s ++ [p]))
       end.

(** A generated message [m] (its bytes are in _msg_buffer) is put into the
    packet: rfc5444_writer_create_message begins a packet if there is none
    (rfc5444_msg_generator.c:197-206), _finalize_message_fragment flushes a
    full one (1497-1512) and copies the message (1537-1572).  Message
    post-processors are not modelled. *)
Definition ts_generate (c : pktcfg) (s : tstate) (m : bytes) : option tstate :=
  match (if ts_flushed s then ts_begin c s else Some s) with
  | None => None
  | Some s =>
    let d := tg_pkt (ts_target s) in
    match (if tw_header d + tw_added d + tw_set d + tg_msgs (ts_target s) + zlen m >? tw_max d
           then match ts_flush c s with None => None | Some s => ts_begin c s end
           else Some s) with
    | None => None
    | Some s => match append_message (ts_target s) m with
                | None => None
                | Some t => Some (Tstate t (ts_flushed s) (ts_sent s))
                end
    end
  end.

(** The forwarded copy of a message (rfc5444_msg_generator.c:545-571 and
    603-620): the message size is rewritten, the hop limit is decremented, the
    hop count incremented (both are uint8_t).  [None]: outside of the message. *)
Definition fwd_offsets (flags : Z) : option Z * option Z :=
  let cnt := 4 in
  let cnt := if Z.land flags 0x80 =? 0 then cnt else cnt + (Z.land flags 0x0f + 1) in
  let '(hoplimit, cnt) := if Z.land flags 0x40 =? 0 then (None, cnt) else (Some cnt, cnt + 1) in
  let hopcount := if Z.land flags 0x20 =? 0 then None else Some cnt in
  (hoplimit, hopcount).
Definition zupd (l : bytes) (i : option Z) (f : Z -> Z) : option bytes :=
  match i with
  | None => Some l
  | Some i => match zget l i with None => None | Some x => zset l i (f x) end
  end.
Definition forward_bytes (m : bytes) : option bytes :=
  match zget m 1 with
  | None => None
  | Some flags =>
    let '(hl, hc) := fwd_offsets flags in
    match copy_in m 2 [u8 (zlen m / 256); Z.land (zlen m) 255] with
    | None => None
    | Some m => match zupd m hl (fun x => u8 (x - 1)) with
                | None => None
                | Some m => zupd m hc (fun x => u8 (x + 1))
                end
    end
  end.

(** sizeof(_msg_buffer) = RFC5444_MAX_MESSAGE_SIZE, and the size of
    writer->msg_buffer in oonf_rfc5444.c:229-231 *)
Definition MAX_MESSAGE_SIZE : Z := 1225.

(** rfc5444_writer_forward_msg (rfc5444_msg_generator.c:451-622) for a
    registered message type and one target which the selector chooses, without
    forwarding processors.  The result and the new state. *)
Definition W_FW_MESSAGE_TOO_LONG : Z := -14.
Definition ts_room (s : tstate) : Z :=
  let d := tg_pkt (ts_target s) in
  u64 (tw_max d - (tw_header d + tw_added d + tw_allocated d + tg_msgs (ts_target s))).
Definition ts_forward (c : pktcfg) (s : tstate) (m : bytes) : option (Z * tstate) :=
  match (if negb (ts_flushed s) && (zlen m >? ts_room s) then ts_flush c s else Some s) with
  | None => None
  | Some s =>
    match (if ts_flushed s then ts_begin c s else Some s) with
    | None => None
    | Some s =>
      if zlen m >? ts_room s then Some (W_FW_MESSAGE_TOO_LONG, s)
      (* memcpy(_msg_buffer, writer->_msg.buffer, len) *)
      else if zlen m >? MAX_MESSAGE_SIZE then None
      else
        match zget m 1 with
        | None => None
        | Some flags =>
          match (match fst (fwd_offsets flags) with
                 | None => Some false
                 | Some i => match zget m i with None => None | Some h => Some (h <=? 1) end
                 end) with
          | None => None
          | Some true => Some (W_OKAY, s)
          | Some false =>
            match forward_bytes m with
            | None => None
            | Some m' => match append_message (ts_target s) m' with
                         | None => None
                         | Some t => Some (W_OKAY, Tstate t (ts_flushed s) (ts_sent s))
                         end
            end
          end
        end
    end
  end.

(** What happens at a target: a generated message, a message to forward, the
    aggregation timer (rfc5444_writer_flush) *)
Inductive tsop := SGenerate (m : bytes) | SForward (m : bytes) | SFlush.
Definition ts_step (c : pktcfg) (s : tstate) (o : tsop) : option (Z * tstate) :=
  match o with
  | SGenerate m => match ts_generate c s m with None => None | Some s => Some (W_OKAY, s) end
  | SForward m => ts_forward c s m
  | SFlush => match ts_flush c s with None => None | Some s => Some (W_OKAY, s) end
  end.
Fixpoint ts_run (c : pktcfg) (s : tstate) (ops : list tsop) : option (list Z * tstate) :=
  match ops with
  | [] => Some ([], s)
  | o :: ops' =>
    match ts_step c s o with
    | None => None
    | Some (r, s') => match ts_run c s' ops' with None => None | Some (rs, s'') => Some (r :: rs, s'') end
    end
  end.
