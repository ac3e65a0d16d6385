(** What the TLV writer and the packet generator should do, in terms of the
    wire format of WireSpec.v. *)
From Verif Require Import Base BitsModel WriterModel ReaderModel ReadDispModel WireSpec.

(** the TLV a provider means with type, extension (0: none) and value *)
Definition tlv_of (type ext : Z) (v : bytes) : wtlv := {|
  w_type := type; w_ext := if ext =? 0 then None else Some ext; w_index := WAll; w_long := 255 <? zlen v;
  w_value := match v with [] => None | _ => Some v end; w_multi := false |}.

(** bytes needed by a call *)
Definition op_size (o : twop) : Z :=
  match o with
  | TAdd t x v | TSet t x v => zlen (enc_tlv (tlv_of t x v))
  | TAllocate h l => 2 + (if h then 1 else 0) + l + (if l =? 0 then 0 else if l <=? 255 then 1 else 2)
  end.
(** arguments of a call: bytes, and lengths of objects which fit into memory *)
Definition op_ok (o : twop) : Prop :=
  match o with
  | TAdd t x v | TSet t x v => is_u8 t /\ is_u8 x /\ all_bytes v /\ zlen v < 9223372036854775808
  | TAllocate _ l => 0 <= l < 9223372036854775808
  end.
(** a writer whose parts fit into its maximum, and the maximum into the buffer *)
Definition tw_ok (d : twd) : Prop :=
  0 <= tw_header d /\ 0 <= tw_added d /\ 0 <= tw_set d <= tw_allocated d /\
  tw_header d + tw_added d + tw_allocated d <= tw_max d <= zlen (tw_buf d) /\ tw_max d < 4611686018427387904.
(** there is room for the call *)
Definition op_fits (d : twd) (o : twop) : Prop :=
  match o with
  | TAdd _ _ _ | TAllocate _ _ => tw_header d + tw_added d + tw_allocated d + op_size o <= tw_max d
  | TSet _ _ _ => tw_set d + op_size o <= tw_allocated d
  end.

(** the TLVs of the calls which were accepted *)
Fixpoint accepted (ops : list twop) (rs : list Z) : list wtlv :=
  match ops, rs with
  | o :: ops, r :: rs =>
      (if r =? 0 then match o with TAdd t x v | TSet t x v => [tlv_of t x v] | TAllocate _ _ => [] end else [])
      ++ accepted ops rs
  | _, _ => []
  end.
(** add and allocate are called before set (asserted by the writer: WRITER_STATE_MACHINE) *)
Definition is_set (o : twop) : bool := match o with TSet _ _ _ => true | _ => false end.
Definition is_alloc (o : twop) : bool := match o with TAllocate _ _ => true | _ => false end.

(** * Packets of a target *)
(** what is sent, as messages *)
Inductive sop := Generate (m : wmsg) | Forward (m : wmsg) | Timer.
Definition to_op (o : sop) : tsop :=
  match o with Generate m => SGenerate (enc_msg m) | Forward m => SForward (enc_msg m) | Timer => SFlush end.

(** the message a forwarder sends: one hop less to go, one hop more behind *)
Definition next_hop (m : wmsg) : wmsg := {|
  wm_type := wm_type m; wm_addrlen := wm_addrlen m; wm_orig := wm_orig m;
  wm_hoplimit := match wm_hoplimit m with Some h => Some (h - 1) | None => None end;
  wm_hopcount := match wm_hopcount m with Some h => Some ((h + 1) mod 256) | None => None end;
  wm_seqno := wm_seqno m; wm_tlvs := wm_tlvs m; wm_blocks := wm_blocks m |}.
Definition may_travel (m : wmsg) : bool := match wm_hoplimit m with Some h => 2 <=? h | None => true end.

(** the messages which leave the router: everything generated, and of the
    messages to forward those which fit into a packet and may go on *)
Fixpoint leaving (ops : list sop) (rs : list Z) : list wmsg :=
  match ops, rs with
  | o :: ops, r :: rs =>
      match o with
      | Generate m => [m]
      | Forward m => if (r =? 0) && may_travel m then [next_hop m] else []
      | Timer => []
      end ++ leaving ops rs
  | _, _ => []
  end.

(** header, space for post-processors and TLVs of packet [k] *)
Definition sum (l : list Z) : Z := fold_right Z.add 0 l.
Definition overhead (c : pktcfg) (k : Z) : Z :=
  match pc_seqno c k with Some _ => 5 | None => 3 end + pc_space c + sum (map op_size (pc_ops c k)).

(** a usable configuration *)
Definition cfg_ok (c : pktcfg) : Prop :=
  0 <= pc_space c /\ 5 + pc_space c <= pc_size c < 65536 /\
  forall k, (forall s, pc_seqno c k = Some s -> is_u16 s) /\
            Forall op_ok (pc_ops c k) /\ Forall op_ok (pc_sets c k) /\
            Forall (fun o => is_set o = false) (pc_ops c k) /\ Forall (fun o => is_set o = true) (pc_sets c k).
(** no space is reserved in packets for later TLVs or post-processors *)
Definition no_reserve (c : pktcfg) : Prop :=
  pc_space c = 0 /\ forall k, Forall (fun o => is_alloc o = false) (pc_ops c k).
