(** Model of the parsing half of src/librfc5444/rfc5444_reader.c: TLVs, TLV
    blocks and address blocks.  A pointer into the packet is its offset ([Z])
    from the start of the packet buffer; every dereference goes through the
    packet bytes and yields [Bad] when it is outside.  Dispatch to consumers
    is in ReadDispModel.v. *)
From Verif Require Import Base BitsModel NetaddrModel.

(** ** Outcomes *)
Record tlv := {
  t_type : Z; t_flags : Z; t_ext : Z; t_length : Z;
  t_single : option Z;      (* offset of single_value, None = NULL *)
  t_idx1 : Z; t_idx2 : Z;
  t_value : option Z;       (* offset of _value, None = NULL *)
  t_multi : bool;
  t_drop : list Z           (* indices set in int_drop_tlv *)
}.

(** The undefined operations of the reader. *)
Inductive rfault :=
| F_read (off : Z)           (* a byte outside of the packet buffer is read *)
| F_plen (off : Z)           (* the same for the single prefix length of line 886 *)
| F_div0 (t : tlv)           (* remainder by zero, line 540 *)
| F_mid (mid_start mid_len : Z) (* memcpy past the end of addr[16], line 975 *)
| F_head                     (* memcpy past the end of addr[16], lines 844 and 865 *)
| F_null                     (* a NULL pointer is dereferenced *)
| F_fuel.                    (* loop of the model ran out of fuel *)

Inductive outcome (A : Type) := Ok (a : A) | Bad (f : rfault).
Arguments Ok {A} a.
Arguments Bad {A} f.
Definition obind {A B} (x : outcome A) (f : A -> outcome B) : outcome B :=
  match x with Ok a => f a | Bad e => Bad e end.
Notation "'do' ' p <- x ; k" := (obind x (fun p => k)) (at level 200, p strict pattern, x at level 100, k at level 200).

(** rfc5444_context.h: result codes *)
Definition OKAY : Z := 0.
Definition DROP_TLV : Z := 1.
Definition DROP_ADDRESS : Z := 2.
Definition DROP_MSG_BUT_FORWARD : Z := 3.
Definition DROP_MESSAGE : Z := 4.
Definition DROP_PACKET : Z := 5.
Definition E_VERSION : Z := -1.
Definition E_EOB : Z := -2.
Definition E_IDXFLAGS : Z := -3.
Definition E_VALUEFLAGS : Z := -4.
Definition E_TLVLEN : Z := -5.
Definition E_OOM : Z := -6.
Definition E_EMPTY : Z := -7.
Definition E_TAILFLAGS : Z := -8.
Definition E_PREFIXFLAGS : Z := -9.
Definition E_TOO_LARGE : Z := -16.
Definition E_HEADLEN : Z := -18.
Definition E_TAILLEN : Z := -19.
Definition E_IDX : Z := -20.

Definition flag (x m : Z) : bool := negb (Z.land x m =? 0).

(** rfc5444_reader.c:392-406 [_rfc5444_get_u8]: value, pointer, error *)
Definition get_u8 (pkt : bytes) (ptr eob err : Z) : outcome (Z * Z * Z) :=
  if negb (err =? OKAY) then Ok (0, ptr, err)
  else if eob <=? ptr then Ok (0, ptr, E_EOB)
  else match zget pkt ptr with
       | None => Bad (F_read ptr)
       | Some b => Ok (b, ptr + 1, OKAY)
       end.

(** rfc5444_reader.c:417-420 [_rfc5444_get_u16].  C leaves the order in which
    the two operands of [|] are evaluated open; the model takes the left one
    first, which is what the code needs. *)
Definition get_u16 (pkt : bytes) (ptr eob err : Z) : outcome (Z * Z * Z) :=
  do '(h, ptr, err) <- get_u8 pkt ptr eob err;
  do '(l, ptr, err) <- get_u8 pkt ptr eob err;
  Ok (Z.lor (u16 (Z.shiftl h 8)) l, ptr, err).

(** rfc5444_reader.c:354-357 [_calc_tlvblock_intorder], the [_order] field *)
Definition t_order (t : tlv) : Z := u16 (Z.lor (Z.shiftl (t_type t) 8) (t_ext t)).

(** rfc5444_reader.c:446-546 [_parse_tlv].  [prev] is the single_value left in
    the static entry by the previous TLV of the block. *)
Definition parse_tlv (pkt : bytes) (ptr eob addr_count : Z) (prev : option Z) : outcome (Z * Z * tlv) :=
  do '(ty, ptr, err) <- get_u8 pkt ptr eob OKAY;
  do '(flags, ptr, err) <- get_u8 pkt ptr eob err;
  do '(ext, ptr, err) <- (if flag flags 0x80 then get_u8 pkt ptr eob err else Ok (0, ptr, err));
  let mk len single i1 i2 value multi :=
    {| t_type := ty; t_flags := flags; t_ext := ext; t_length := len; t_single := single;
       t_idx1 := i1; t_idx2 := i2; t_value := value; t_multi := multi; t_drop := [] |} in
  let masked := Z.land flags 0x60 in
  do '(i1, i2, ptr, err, bad) <-
     (if masked =? 0 then Ok (0, u8 (addr_count - 1), ptr, err, false)
      else if masked =? 0x40 then do '(i, ptr, err) <- get_u8 pkt ptr eob err; Ok (i, i, ptr, err, false)
      else if masked =? 0x20 then
        do '(i1, ptr, err) <- get_u8 pkt ptr eob err;
        do '(i2, ptr, err) <- get_u8 pkt ptr eob err; Ok (i1, i2, ptr, err, false)
      else Ok (0, 0, ptr, err, true));
  if bad : bool then Ok (E_IDXFLAGS, eob, mk 0 prev i1 i2 None false)
  else if (addr_count >? 0) && ((addr_count <=? i1) || (addr_count <=? i2))
  then Ok (E_IDX, eob, mk 0 prev i1 i2 None false)
  else
  let masked := Z.land flags 0x18 in
  do '(len, ptr, err, bad) <-
     (if masked =? 0 then Ok (0, ptr, err, false)
      else if masked =? 0x10 then do '(l, ptr, err) <- get_u8 pkt ptr eob err; Ok (l, ptr, err, false)
      else if masked =? 0x18 then do '(l, ptr, err) <- get_u16 pkt ptr eob err; Ok (l, ptr, err, false)
      else Ok (0, ptr, err, true));
  if bad : bool then Ok (E_VALUEFLAGS, eob, mk 0 prev i1 i2 None false)
  else
  let multi := flag flags 0x04 in
  if ptr + len >? eob then Ok (E_EOB, eob, mk len prev i1 i2 None multi)
  else if negb (err =? OKAY) then Ok (err, eob, mk len prev i1 i2 None multi)
  else if len =? 0 then Ok (OKAY, ptr, mk 0 prev i1 i2 None multi)
  else
  let value := Some ptr in
  let ptr := ptr + len in
  let count := u8 (i2 - i1 + 1) in
  let multi := if count =? 1 then false else multi in
  if negb multi then Ok (OKAY, ptr, mk len value i1 i2 value false)
  else if count =? 0 then Bad (F_div0 (mk len prev i1 i2 value multi))
  else if negb (len mod count =? 0) then Ok (E_TLVLEN, ptr, mk len prev i1 i2 value multi)
  else Ok (OKAY, ptr, mk (len / count) prev i1 i2 value multi).

(** ** Memory of the reader: number of allocations made so far and number of
    live TLV and address block entries.  [alloc n] tells whether the n-th
    allocation callback returns memory. *)
Record mem := { m_n : nat; m_tlv : Z; m_addr : Z }.
Definition m_fail (m : mem) : mem := {| m_n := S (m_n m); m_tlv := m_tlv m; m_addr := m_addr m |}.
Definition m_add_tlv (m : mem) : mem := {| m_n := S (m_n m); m_tlv := m_tlv m + 1; m_addr := m_addr m |}.
Definition m_add_addr (m : mem) : mem := {| m_n := S (m_n m); m_tlv := m_tlv m; m_addr := m_addr m + 1 |}.
Definition m_free_tlvs (m : mem) (k : Z) : mem := {| m_n := m_n m; m_tlv := m_tlv m - k; m_addr := m_addr m |}.
Definition m_free_addr (m : mem) : mem := {| m_n := m_n m; m_tlv := m_tlv m; m_addr := m_addr m - 1 |}.

(** insertion into the AVL tree sorted by [_order] that allows duplicates, as
    a sorted list (AvlProps.v, C01_tree_refines_sequence): behind all entries
    with the same key *)
Fixpoint tlv_insert (t : tlv) (l : list tlv) : list tlv :=
  match l with
  | [] => [t]
  | x :: l' => if t_order t <? t_order x then t :: l else x :: tlv_insert t l'
  end.

Section Parser.
Context (alloc : nat -> bool) (pkt : bytes).

(** rfc5444_reader.c:580-602: the loop of [_parse_tlvblock] *)
Fixpoint tlvblock_loop (fuel : nat) (ptr end_ eob addr_count : Z) (prev : option Z)
                       (acc : list tlv) (m : mem) : outcome (Z * Z * list tlv * mem) :=
  if end_ <=? ptr then Ok (OKAY, ptr, acc, m)
  else match fuel with
  | O => Bad F_fuel
  | S fuel' =>
    do '(result, ptr, t) <- parse_tlv pkt ptr eob addr_count prev;
    if negb (result =? OKAY) then Ok (result, ptr, acc, m)
    else if negb (alloc (m_n m)) then Ok (E_OOM, ptr, acc, m_fail m)
    else tlvblock_loop fuel' ptr end_ eob addr_count (t_single t) (tlv_insert t acc) (m_add_tlv m)
  end.

(** rfc5444_reader.c:558-609 [_parse_tlvblock] on an empty tree.  After an
    error the tree is emptied again and the pointer is [eob].  If reading the
    two length bytes fails, [end] is at least ptr + 2 > eob. *)
Definition parse_tlvblock (ptr eob addr_count : Z) (m : mem) : outcome (Z * Z * list tlv * mem) :=
  do '(len, ptr', err) <- get_u16 pkt ptr eob OKAY;
  let end_ := ptr + 2 + len in
  if end_ >? eob then Ok (E_EOB, eob, [], m)
  else
    do '(result, ptr'', acc, m') <-
       tlvblock_loop (S (length pkt)) ptr' end_ eob addr_count None [] m;
    if negb (result =? OKAY) then Ok (result, eob, [], m_free_tlvs m' (zlen acc))
    else Ok (OKAY, ptr'', acc, m').

(** ** Address blocks *)
Record ablock := {
  ab_num : Z; ab_mid_start : Z; ab_mid_len : Z; ab_mid_src : Z;
  ab_prefixes : option Z; ab_plen : Z; ab_addr : bytes;
  ab_ptr : Z; ab_size : Z; ab_tlv_size : Z;
  ab_tlvs : list tlv; ab_drop : list Z
}.

Definition RFC5444_MAX_ADDRLEN : Z := 16.

(** rfc5444_reader.c:807-905 [_parse_addrblock].  The entry was allocated with
    calloc or from a memory class, so all fields start as zero.  On an error
    the caller releases the entry again; the model returns [None]. *)
Definition parse_addrblock (addr_len ptr eob : Z) : outcome (Z * Z * option ablock) :=
  let start := ptr in
  do '(num, ptr, err) <- get_u8 pkt ptr eob OKAY;
  if num =? 0 then Ok (E_EMPTY, ptr, None)
  else
  do '(flags, ptr, err) <- get_u8 pkt ptr eob err;
  (* 831-847: head *)
  do '(code, ptr, err, mid_start, mid_len, addr) <-
     (if flag flags 0x80 then
        do '(ms, ptr, err) <- get_u8 pkt ptr eob err;
        if (ms <? 1) || (RFC5444_MAX_ADDRLEN <=? ms) || (addr_len <=? ms)
        then Ok (E_HEADLEN, ptr, err, ms, addr_len, zero16)
        else if ptr + ms >? eob then Ok (E_EOB, ptr, err, ms, addr_len, zero16)
        else match copy_out pkt ptr (Z.to_nat ms) with
             | None => Bad (F_read ptr)
             | Some h => match copy_in zero16 0 h with
                         | None => Bad F_head
                         | Some a => Ok (OKAY, ptr + ms, err, ms, u8 (addr_len - ms), a)
                         end
             end
      else Ok (OKAY, ptr, err, 0, addr_len, zero16));
  if negb (code =? OKAY) then Ok (code, ptr, None)
  else
  (* 849-871: tail *)
  let masked := Z.land flags 0x60 in
  do '(code, ptr, err, mid_len, addr) <-
     (if masked =? 0x20 then
        do '(z, ptr, err) <- get_u8 pkt ptr eob err; Ok (OKAY, ptr, err, u8 (mid_len - z), addr)
      else if masked =? 0x40 then
        do '(tl, ptr, err) <- get_u8 pkt ptr eob err;
        if (tl <? 1) || (RFC5444_MAX_ADDRLEN <=? tl) || (addr_len <=? tl)
        then Ok (E_TAILLEN, ptr, err, mid_len, addr)
        else if ptr + tl >? eob then Ok (E_EOB, ptr, err, mid_len, addr)
        else match copy_out pkt ptr (Z.to_nat tl) with
             | None => Bad (F_read ptr)
             | Some h => match copy_in addr (addr_len - tl) h with
                         | None => Bad F_head
                         | Some a => Ok (OKAY, ptr + tl, err, u8 (mid_len - tl), a)
                         end
             end
      else if negb (masked =? 0) then Ok (E_TAILFLAGS, ptr, err, mid_len, addr)
      else Ok (OKAY, ptr, err, mid_len, addr));
  if negb (code =? OKAY) then Ok (code, ptr, None)
  else
  (* 873-878: middle part *)
  let mid_src := ptr in
  let ptr := ptr + mid_len * num in
  if ptr >? eob then Ok (E_EOB, ptr, None)
  else
  (* 880-895: prefix lengths *)
  let masked := Z.land flags 0x18 in
  do '(code, ptr, plen, prefixes) <-
     (if masked =? 0 then Ok (OKAY, ptr, u8 (addr_len * 8), None)
      else if masked =? 0x10 then
        match zget pkt ptr with
        | None => Bad (F_plen ptr)
        | Some p => Ok (OKAY, ptr + 1, p, None)
        end
      else if masked =? 0x08 then Ok (OKAY, ptr + num, 0, Some ptr)
      else Ok (E_PREFIXFLAGS, ptr, 0, None));
  if negb (code =? OKAY) then Ok (code, ptr, None)
  else if ptr >? eob then Ok (E_EOB, ptr, None)
  else if negb (err =? OKAY) then Ok (err, ptr, None)
  else Ok (OKAY, ptr, Some {| ab_num := num; ab_mid_start := mid_start; ab_mid_len := mid_len;
         ab_mid_src := mid_src; ab_prefixes := prefixes; ab_plen := plen; ab_addr := addr;
         ab_ptr := start; ab_size := ptr - start; ab_tlv_size := 0; ab_tlvs := []; ab_drop := [] |}).

Definition ab_with_tlvs (a : ablock) (tlvs : list tlv) (size : Z) : ablock :=
  {| ab_num := ab_num a; ab_mid_start := ab_mid_start a; ab_mid_len := ab_mid_len a;
     ab_mid_src := ab_mid_src a; ab_prefixes := ab_prefixes a; ab_plen := ab_plen a; ab_addr := ab_addr a;
     ab_ptr := ab_ptr a; ab_size := ab_size a; ab_tlv_size := size; ab_tlvs := tlvs; ab_drop := ab_drop a |}.

Definition sum_tlvs (l : list ablock) : Z := fold_right (fun a n => zlen (ab_tlvs a) + n) 0 l.

(** rfc5444_reader.c:1151-1180: the address block loop of [_handle_message];
    [acc] is the list of address blocks in order of parsing *)
Fixpoint addrblocks_loop (fuel : nat) (addr_len ptr end_ : Z) (acc : list ablock) (m : mem)
    : outcome (Z * Z * list ablock * mem) :=
  if end_ <=? ptr then Ok (OKAY, ptr, acc, m)
  else match fuel with
  | O => Bad F_fuel
  | S fuel' =>
    if negb (alloc (m_n m)) then Ok (E_OOM, ptr, acc, m_fail m)
    else
    let m := m_add_addr m in
    do '(result, ptr, ab) <- parse_addrblock addr_len ptr end_;
    match ab with
    | None => Ok (result, ptr, acc, m_free_addr m)
    | Some ab =>
      do '(result, ptr, tlvs, m) <- parse_tlvblock ptr end_ (ab_num ab) m;
      if negb (result =? OKAY) then Ok (result, ptr, acc, m_free_addr m)
      else addrblocks_loop fuel' addr_len ptr end_
             (acc ++ [ab_with_tlvs ab tlvs (ptr - ab_size ab - ab_ptr ab)]) m
    end
  end.

(** ** Message header, rfc5444_reader.c:1093-1142 *)
Record mhdr := {
  mh_type : Z; mh_flags : Z; mh_addr_len : Z; mh_size : Z;
  mh_orig : option netaddr; mh_hoplimit : option Z; mh_hopcount : option Z; mh_seqno : option Z
}.

(** the result is the error code, the pointer behind the header, and the
    header (complete only if the code is OKAY) *)
Definition parse_msgheader (start eob : Z) : outcome (Z * Z * mhdr) :=
  do '(ty, ptr, err) <- get_u8 pkt start eob OKAY;
  do '(flags, ptr, err) <- get_u8 pkt ptr eob err;
  do '(size, ptr, err) <- get_u16 pkt ptr eob err;
  let addr_len := Z.land flags 0x0f + 1 in
  let mk orig hl hc sn := {| mh_type := ty; mh_flags := Z.land flags 0xf0; mh_addr_len := addr_len;
       mh_size := size; mh_orig := orig; mh_hoplimit := hl; mh_hopcount := hc; mh_seqno := sn |} in
  if flag flags 0x80 && (ptr + addr_len >? eob) then Ok (E_EOB, ptr, mk None None None None)
  else
  do '(orig, ptr) <-
     (if flag flags 0x80 then
        match copy_out pkt ptr (Z.to_nat addr_len) with
        | None => Bad (F_read ptr)
        | Some b => match from_binary_prefix b 0 255 with
                    | None => Bad F_head
                    | Some (_, a) => Ok (Some a, ptr + addr_len)
                    end
        end
      else Ok (None, ptr));
  do '(hl, ptr, err) <-
     (if flag flags 0x40 then do '(x, ptr, err) <- get_u8 pkt ptr eob err; Ok (Some x, ptr, err)
      else Ok (None, ptr, err));
  do '(hc, ptr, err) <-
     (if flag flags 0x20 then do '(x, ptr, err) <- get_u8 pkt ptr eob err; Ok (Some x, ptr, err)
      else Ok (None, ptr, err));
  do '(sn, ptr, err) <-
     (if flag flags 0x10 then do '(x, ptr, err) <- get_u16 pkt ptr eob err; Ok (Some x, ptr, err)
      else Ok (None, ptr, err));
  if start + size >? eob then Ok (E_EOB, eob, mk orig hl hc sn)
  else Ok (err, ptr, mk orig hl hc sn).

(** The parsing part of [_handle_message], rfc5444_reader.c:1086-1184: either
    an error, or the header with all TLVs and address blocks. *)
Record message := { ms_start : Z; ms_hdr : mhdr; ms_tlvs : list tlv; ms_addrs : list ablock }.

Definition parse_message (start eob : Z) (m : mem) : outcome (Z * message * mem) :=
  do '(err, ptr, h) <- parse_msgheader start eob;
  let empty := {| ms_start := start; ms_hdr := h; ms_tlvs := []; ms_addrs := [] |} in
  if negb (err =? OKAY) then Ok (err, empty, m)
  else
  let end_ := start + mh_size h in
  do '(err, ptr, tlvs, m) <- parse_tlvblock ptr end_ 0 m;
  if negb (err =? OKAY) then Ok (err, empty, m)
  else
  do '(err, ptr, abs, m) <- addrblocks_loop (S (length pkt)) (mh_addr_len h) ptr end_ [] m;
  Ok (err, {| ms_start := start; ms_hdr := h; ms_tlvs := tlvs; ms_addrs := abs |}, m).

End Parser.
