(** Model of src/crypto/rfc5444_signature/rfc5444_signature.c (checking and
    adding ICV TLVs), of the default [validate] callback of
    src/crypto/rfc7182_provider/rfc7182_provider.c and of the key-id check of
    src/crypto/sharedkey_sig/sharedkey_sig.c.

    Bytes received are a [bytes] list, a source pointer is an offset into it.
    The static message buffer of the module is only ever filled from front to
    back, so it is kept as the list of the bytes written so far together with
    its capacity.  The cryptographic function of a provider is an oracle. *)
From Verif Require Import Base BitsModel NetaddrModel.

(** ** Outcomes *)
Inductive sfault :=
| S_read (off : Z)      (* a byte outside of the received data is read *)
| S_static (n : Z)      (* [n] bytes do not fit into _static_message_buffer *)
| S_packet (n : Z)      (* the signed data ([n] bytes) does not fit into the output buffer *)
| S_null                (* call through a NULL hash/crypt pointer *)
| S_fuel.               (* loop of the model ran out of fuel *)
Inductive sres (A : Type) := SOk (a : A) | SBad (f : sfault).
Arguments SOk {A} a.
Arguments SBad {A} f.
Definition sbind {A B} (x : sres A) (f : A -> sres B) : sres B :=
  match x with SOk a => f a | SBad e => SBad e end.
Notation "'sdo' ' p <- x ; k" := (sbind x (fun p => k)) (at level 200, p strict pattern, x at level 100, k at level 200).

Definition bit (x m : Z) : bool := negb (Z.land x m =? 0).

(** rfc5444_writer.h:82 RFC5444_MAX_PACKET_SIZE, the size of
    [_static_message_buffer] (rfc5444_signature.c:126) *)
Definition STATIC_SIZE : Z := 1500 - 20 - 8.
(** rfc5444_iana.h:99,130 RFC7182_PKTTLV_ICV = RFC7182_MSGTLV_ICV *)
Definition ICV : Z := 5.
(** rfc5444_iana.h:344,347 *)
Definition EXT_CRYPTHASH : Z := 1.
Definition EXT_SRCSPEC : Z := 2.
(** rfc5444_writer.h RFC5444_WRITER_PKT_POSTPROCESSOR: pseudo message type of a packet *)
Definition PKT_TYPE : Z := -1.
(** rfc5444_context.h RFC5444_OKAY / DROP_MESSAGE / DROP_PACKET *)
Definition R_OKAY : Z := 0.
Definition R_DROP_MESSAGE : Z := 4.
Definition R_DROP_PACKET : Z := 5.

(** ** The context of a block callback (rfc5444_reader.h, the fields used here) *)
Record sctx := {
  c_msg : bool;            (* type == RFC5444_CONTEXT_MESSAGE *)
  c_type : Z;              (* msg_type *)
  c_start : Z; c_size : Z; (* msg_buffer/msg_size or pkt_buffer/pkt_size *)
  c_pktseq : bool;
  c_orig : bool; c_alen : Z; c_hl : bool; c_hc : bool; c_seq : bool
}.

Section Remove.
Context (pkt : bytes).

Definition sget (off : Z) : sres Z := match zget pkt off with Some b => SOk b | None => SBad (S_read off) end.
Definition scopy (off n : Z) : sres bytes :=
  match copy_out pkt off (Z.to_nat n) with Some l => SOk l | None => SBad (S_read (off + n)) end.
(** [used] bytes of the static buffer are in use already *)
Definition sput (used : Z) (l : bytes) : sres bytes :=
  if used + zlen l <=? STATIC_SIZE then SOk l else SBad (S_static (used + zlen l)).

(** rfc5444_signature.c:586-616: length of the header in front of the TLV
    block, offsets of hop limit and hop count (0 = not there) *)
Definition hdr_of (x : sctx) : Z * Z * Z :=
  if c_msg x then
    let len := 4 + (if c_orig x then c_alen x else 0) in
    let hl := if c_hl x then len else 0 in
    let len := if c_hl x then len + 1 else len in
    let hc := if c_hc x then len else 0 in
    let len := if c_hc x then len + 1 else len in
    (if c_seq x then len + 2 else len, hl, hc)
  else (if c_pktseq x then 3 else 1, 0, 0).

(** [dst_ptr\[i\] = 0] *)
Definition zero_at (i : Z) (l : bytes) : bytes :=
  if i =? 0 then l else match zset l i 0 with Some l' => l' | None => l end.

(** rfc5444_signature.c:645-657: length of the TLV at [src], an uint16_t *)
Definition rm_tlvlen (src : Z) : sres Z :=
  sdo 'flags <- sget (src + 1);
  let tl := if bit flags 0x80 then 3 else 2 in
  if bit flags 0x10 then
    if bit flags 0x08 then
      sdo 'a <- sget (src + tl); sdo 'b <- sget (src + tl + 1); SOk (u16 (tl + 256 * a + b + 2))
    else sdo 'a <- sget (src + tl); SOk (u16 (tl + a + 1))
  else SOk tl.

(** rfc5444_signature.c:643-670: the loop over the TLVs.  [used] counts the
    bytes in front of the TLVs in the static buffer. *)
Fixpoint rm_loop (fuel : nat) (used src len blocklen : Z) (out : bytes) : sres (Z * Z * bytes) :=
  if len =? 0 then SOk (src, blocklen, out)
  else match fuel with
  | O => SBad S_fuel
  | S fuel' =>
    sdo 'tl <- rm_tlvlen src;
    sdo 'ty <- sget src;
    if negb (ty =? ICV) then
      sdo 'l <- scopy src tl;
      sdo 'l <- sput (used + zlen out) l;
      rm_loop fuel' used (src + tl) (u16 (len - tl)) blocklen (out ++ l)
    else rm_loop fuel' used (src + tl) (u16 (len - tl)) (u16 (blocklen - tl)) out
  end.

(** rfc5444_signature.c:575-701 [_remove_signature_data], [base] bytes of the
    static buffer are in front of [dst].  Result: the bytes at [dst]. *)
Definition remove_signature_data (fuel : nat) (base : Z) (x : sctx) : sres bytes :=
  let '(len, hl, hc) := hdr_of x in
  sdo 'hdr <- scopy (c_start x) len;
  sdo 'hdr <- sput base hdr;
  let hdr := zero_at hc (zero_at hl hdr) in
  let src := c_start x + len in
  sdo 'a <- sget src;
  sdo 'b <- sget (src + 1);
  let blocklen := u16 (256 * a + b) in
  sdo '(src, blocklen, tlvs) <- rm_loop fuel (base + len + 2) (src + 2) blocklen blocklen [];
  let keep := (blocklen >? 0) || c_msg x in
  let rest := u16 (c_start x + c_size x - src) in
  sdo 'r <- scopy src rest;
  sdo 'r <- sput (base + len + (if keep then 2 else 0) + zlen tlvs) r;
  if keep then
    let out := hdr ++ [blocklen / 256; Z.land blocklen 255] ++ tlvs ++ r in
    if c_msg x then
      match zset out 2 (u16 (zlen out) / 256) with
      | Some out1 => match zset out1 3 (Z.land (u16 (zlen out)) 255) with Some out2 => SOk out2 | None => SBad (S_static 3) end
      | None => SBad (S_static 2)
      end
    else SOk out
  else
    match hdr with
    | b0 :: hdr' => SOk (Z.land b0 (255 - 0x04) :: hdr' ++ tlvs ++ r)
    | [] => SOk (tlvs ++ r)
    end.
End Remove.

(** ** Signatures *)
(** enum rfc5444_sigid_check *)
Inductive idcheck := IdIgnore | IdDrop | IdOkay.
(** struct rfc5444_signature: the functions of [key], the callbacks, and
    whether the pointers [hash] and [crypt] are set.  The key ids are those
    of the sender ([g_keyid]). *)
Record sig := {
  g_hash : Z; g_crypt : Z; g_keyid : bytes; g_key : bytes;
  g_match : Z -> bool; g_verify : bytes -> idcheck;
  g_srcspec : bool; g_drop : bool; g_ready : bool
}.
(** an ICV TLV handed to the callback: type extension and value *)
Record itlv := { i_ext : Z; i_val : bytes }.

Fixpoint beqb (a b : bytes) : bool :=
  match a, b with
  | [], [] => true
  | x :: a', y :: b' => (x =? y) && beqb a' b'
  | _, _ => false
  end.

Section Check.
(** [sign hash crypt text key]: the ICV made by the sign callback of the
    provider, [None] if it fails *)
Context (sign : Z -> Z -> bytes -> bytes -> option bytes).

(** rfc7182_provider.c:277-305 [_cb_validate_by_sign].  The function is
    declared bool: the [return -1] of lines 286 and 295 is true. *)
Definition validate_by_sign (hash crypt : Z) (icv text key : bytes) : bool :=
  match sign hash crypt text key with
  | None => true
  | Some s => if negb (zlen s =? zlen icv) then true else beqb icv s
  end.

(** rfc5444_signature.c:308-347: the loop over the signatures with the
    functions of the TLV.  [ver] are the [verified] flags; [None]: dropped. *)
Fixpoint try_sigs (mt : Z) (t : itlv) (hash crypt : Z) (kid icv text : bytes) (gs : list sig) (ver : list bool)
  : sres (option (list bool)) :=
  match gs, ver with
  | g :: gs', v :: ver' =>
      sdo 'one <-
        (if negb ((g_hash g =? hash) && (g_crypt g =? crypt)) then SOk (Some v)
         else if negb (g_match g mt) then SOk (Some v)
         else if negb (Bool.eqb (i_ext t =? EXT_SRCSPEC) (g_srcspec g)) then SOk (Some v)
         else match g_verify g kid with
              | IdIgnore => SOk (Some v)
              | IdDrop => SOk None
              | IdOkay => if negb (g_ready g) then SBad S_null
                          else SOk (Some (validate_by_sign hash crypt icv text (g_key g)))
              end);
      match one with
      | None => SOk None
      | Some v' =>
          sdo 'r <- try_sigs mt t hash crypt kid icv text gs' ver';
          SOk (match r with None => None | Some l => Some (v' :: l) end)
      end
  | _, _ => SOk (Some [])
  end.

(** rfc5444_signature.c:270-306: one TLV.  [src] is the binary source address
    of the packet. *)
Definition check_tlv (fuel : nat) (pkt src : bytes) (x : sctx) (mt : Z) (gs : list sig) (t : itlv) (ver : list bool)
  : sres (option (list bool)) :=
  if negb (i_ext t =? EXT_CRYPTHASH) && negb (i_ext t =? EXT_SRCSPEC) then SOk (Some ver)
  else match i_val t with
  | hash :: crypt :: kl :: rest =>
      if zlen (i_val t) <? 4 then SOk (Some ver)
      else if zlen (i_val t) <=? 3 + kl then SOk (Some ver)
      else
        let kid := firstn (Z.to_nat kl) rest in
        let icv := skipn (Z.to_nat kl) rest in
        let front := (if i_ext t =? EXT_SRCSPEC then src else []) ++ [hash; crypt; kl] ++ kid in
        sdo 'front <- sput 0 front;
        sdo 'body <- remove_signature_data pkt fuel (zlen front) x;
        try_sigs mt t hash crypt kid icv (front ++ body) gs ver
  | _ => SOk (Some ver)      (* tlv->length < 4 *)
  end.

Fixpoint check_tlvs (fuel : nat) (pkt src : bytes) (x : sctx) (mt : Z) (gs : list sig) (ts : list itlv) (ver : list bool)
  : sres (option (list bool)) :=
  match ts with
  | [] => SOk (Some ver)
  | t :: ts' =>
      sdo 'r <- check_tlv fuel pkt src x mt gs t ver;
      match r with
      | None => SOk None
      | Some ver' => check_tlvs fuel pkt src x mt gs ts' ver'
      end
  end.

(** rfc5444_signature.c:351-357: a mandatory signature without [verified] *)
Fixpoint missing (mt : Z) (gs : list sig) (ver : list bool) : bool :=
  match gs, ver with
  | g :: gs', v :: ver' => (negb v && (g_drop g && g_match g mt)) || missing mt gs' ver'
  | _, _ => false
  end.

(** rfc5444_signature.c:226-364 [_cb_signature_tlv]: [gs] are the registered
    signatures in the order of the tree, [ts] the ICV TLVs of the block in the
    order in which the reader chains them *)
Definition cb_signature_tlv (fuel : nat) (pkt src : bytes) (x : sctx) (gs : list sig) (ts : list itlv) : sres Z :=
  let mt := if c_msg x then c_type x else PKT_TYPE in
  let drop := if c_msg x then R_DROP_MESSAGE else R_DROP_PACKET in
  if negb (existsb (fun g => g_match g mt) gs) then SOk R_OKAY
  else
    sdo 'r <- check_tlvs fuel pkt src x mt gs ts (map (fun _ => false) gs);
    match r with
    | None => SOk drop
    | Some ver => SOk (if missing mt gs ver then drop else R_OKAY)
    end.

(** rfc5444_reader.c:221: block callbacks of packet consumers run only if the
    packet has a TLV block *)
Definition packet_consumer (has_tlv : bool) (fuel : nat) (pkt src : bytes) (x : sctx) (gs : list sig) (ts : list itlv) : sres Z :=
  if has_tlv then cb_signature_tlv fuel pkt src x gs ts else SOk R_OKAY.

(** ** Adding a signature *)
(** what [_cb_add_signature] asks the message object *)
Record smsg := { sm_orig : bool; sm_alen : Z; sm_hl : bool; sm_hc : bool; sm_seq : bool }.

(** rfc5444_signature.c:427-466: offset of the TLV block in [data], and the
    offsets of hop limit and hop count *)
Definition add_hdr (m : option smsg) (data : bytes) : sres (Z * Z * Z) :=
  match m with
  | Some s =>
      let len := 4 + (if sm_orig s then sm_alen s else 0) in
      let hl := if sm_hl s then len else 0 in
      let len := if sm_hl s then len + 1 else len in
      let hc := if sm_hc s then len else 0 in
      let len := if sm_hc s then len + 1 else len in
      SOk (if sm_seq s then len + 2 else len, hl, hc)
  | None => sdo 'b <- sget data 0; SOk (if bit b 0x08 then 3 else 1, 0, 0)
  end.

(** rfc5444_signature.c:375-567 [_cb_add_signature]: [src] the binary local
    address for a source specific signature ([None]: netaddr_from_socket
    failed), [room] the size of the buffer [data] is stored in, [sign_size]
    the getSignSize callback.  Result [None]: returned -1.  In the C code the
    writes happen one by one; the model forms the new content at once and
    reports when it does not fit. *)
Definition add_signature (sign_size : Z -> Z -> Z) (g : sig) (src : option bytes) (m : option smsg) (data : bytes) (room : Z)
  : sres (option (bytes * bytes)) :=
  match (if g_srcspec g then src else Some []) with
  | None => SOk None
  | Some addr =>
    let front := addr ++ [g_hash g; g_crypt g; u8 (zlen (g_keyid g))] ++ g_keyid g in
    sdo 'front <- sput 0 front;
    sdo 'copy <- sput (zlen front) data;
    sdo '(tb, hl, hc) <- add_hdr m data;
    let text := front ++ zero_at hc (zero_at hl copy) in
    if negb (g_ready g) then SBad S_null
    else match sign (g_hash g) (g_crypt g) text (g_key g) with
    | None => SOk None
    | Some icv =>
      if zlen icv >? sign_size (g_hash g) (g_crypt g) then SOk None
      else
        let value := [g_hash g; g_crypt g; u8 (zlen (g_keyid g))] ++ g_keyid g ++ icv in
        let sz := zlen value in
        let long := sz >? 255 in
        let tlv := [ICV; if long then 0x98 else 0x90; if g_srcspec g then EXT_SRCSPEC else EXT_CRYPTHASH]
                   ++ (if long then [u8 (sz / 256); Z.land sz 255] else [sz]) ++ value in
        sdo 'head <- scopy data 0 tb;
        sdo 'b0 <- sget data 0;
        sdo '(head, old, rest) <-
          (match m with
           | None =>
               if negb (bit b0 0x04) then
                 sdo 'r <- scopy data tb (zlen data - tb);
                 SOk (match head with h :: hs => Z.lor h 0x04 :: hs | [] => [] end, 0, r)
               else
                 sdo 'a <- sget data tb; sdo 'b <- sget data (tb + 1);
                 sdo 'r <- scopy data (tb + 2) (zlen data - (tb + 2));
                 SOk (head, 256 * a + b, r)
           | Some _ =>
               sdo 'a <- sget data tb; sdo 'b <- sget data (tb + 1);
               sdo 'r <- scopy data (tb + 2) (zlen data - (tb + 2));
               SOk (head, 256 * a + b, r)
           end);
        let bl := old + zlen tlv in
        let out := head ++ [u8 (bl / 256); Z.land bl 255] ++ tlv ++ rest in
        if zlen out >? room then SBad (S_packet (zlen out))
        else
          match m with
          | None => SOk (Some (text, out))
          | Some _ =>
              match zset out 2 (u8 (zlen out / 256)) with
              | Some o1 => match zset o1 3 (Z.land (zlen out) 255) with
                           | Some o2 => SOk (Some (text, o2)) | None => SBad (S_packet 3) end
              | None => SBad (S_packet 2)
              end
          end
    end
  end.
End Check.

(** sharedkey_sig.c:271-285 [_cb_verify_id] *)
Definition shared_verify (id got : bytes) : idcheck := if beqb got id then IdOkay else IdDrop.
(** rfc5444_signature.c:813-817 [_cb_sigid_okay], the default *)
Definition any_id (got : bytes) : idcheck := IdOkay.
(** sharedkey_sig.c: a configured key; [msgs] is the bitmap of message types,
    [packet] the packet option (lines 293-308) *)
Definition shared_sig (hash crypt : Z) (id key : bytes) (msgs : Z -> bool) (packet srcspec drop : bool) : sig :=
  {| g_hash := hash; g_crypt := crypt; g_keyid := id; g_key := key;
     g_match := fun mt => if mt =? PKT_TYPE then packet else msgs mt;
     g_verify := shared_verify id; g_srcspec := srcspec; g_drop := drop; g_ready := true |}.
