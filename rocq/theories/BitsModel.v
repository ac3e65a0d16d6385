(** Model of src/libcommon/bitstream.c and of
    include/oonf/libcommon/bitmap256.h / src/libcommon/bitmap256.c. *)
From Verif Require Import Base.

(** * bitmap256 *)

(** include/oonf/libcommon/bitmap256.h:60-63: four 64-bit words *)
Definition bitmap256 := list Z.

(** bitmap256.h:73-76 *)
Definition bm_get (m : bitmap256) (bit : Z) : option bool :=
  match zget m (Z.shiftr bit 6) with
  | None => None
  | Some w => Some (negb (Z.land w (u64 (Z.shiftl 1 (Z.land bit 63))) =? 0))
  end.
(** bitmap256.h:83-86 *)
Definition bm_set (m : bitmap256) (bit : Z) : option bitmap256 :=
  match zget m (Z.shiftr bit 6) with
  | None => None
  | Some w => zset m (Z.shiftr bit 6) (Z.lor w (u64 (Z.shiftl 1 (Z.land bit 63))))
  end.
(** bitmap256.h:93-96 *)
Definition bm_reset (m : bitmap256) (bit : Z) : option bitmap256 :=
  match zget m (Z.shiftr bit 6) with
  | None => None
  | Some w => zset m (Z.shiftr bit 6) (Z.land w (u64 (Z.lnot (u64 (Z.shiftl 1 (Z.land bit 63))))))
  end.
(** bitmap256.c:56-66 [bitmap256_is_subset], both arrays have 4 words *)
Fixpoint bm_is_subset (set subset : bitmap256) : bool :=
  match set, subset with
  | a :: set', b :: subset' => if negb (a =? Z.lor a b) then false else bm_is_subset set' subset'
  | _, _ => true
  end.

Inductive bm_op := BmSet (bit : Z) | BmReset (bit : Z).
Definition bm_step (m : bitmap256) (o : bm_op) : option bitmap256 :=
  match o with BmSet b => bm_set m b | BmReset b => bm_reset m b end.
Fixpoint bm_run (m : bitmap256) (ops : list bm_op) : option bitmap256 :=
  match ops with
  | [] => Some m
  | o :: ops' => match bm_step m o with None => None | Some m' => bm_run m' ops' end
  end.

(** * Bit streams *)

(** include/oonf/libcommon/bitstream.h:13-25; the buffer is part of the state *)
Record bstream := { bs_buf : bytes; bs_off : Z }.

(** bitstream.c:139-146 [bitstream_w_init] zeroes the buffer *)
Definition w_init (len : nat) : bstream := {| bs_buf := repeat 0 len; bs_off := 0 |}.
(** bitstream.c:20-24 [bitstream_r_init] *)
Definition r_init (b : bytes) : bstream := {| bs_buf := b; bs_off := 0 |}.

(** bitstream.c:239-247 [bitstream_w_pad], 122-130 [bitstream_r_pad] *)
Definition bs_pad (s : bstream) : bstream :=
  let bits := Z.land (bs_off s) 7 in
  {| bs_buf := bs_buf s; bs_off := if bits =? 0 then bs_off s else bs_off s - bits + 8 |}.

(** Outcome of a call: [Fault] is an access outside of the buffer. *)
Inductive bs_result (A : Type) := Fault | Ret (rc : Z) (a : A).
Arguments Fault {A}. Arguments Ret {A}.

(** bitstream.c:224-229: write loop from the last byte to the first *)
Fixpoint w_loop (size : nat) (buf : bytes) (offset src : Z) : option bytes :=
  match size with
  | O => Some buf
  | S size' =>
    match zget buf (offset + Z.of_nat size') with
    | None => None
    | Some b =>
      match zset buf (offset + Z.of_nat size') (u8 (Z.lor b (Z.land src 255))) with
      | None => None
      | Some buf' => w_loop size' buf' offset (Z.shiftr src 8)
      end
    end
  end.

(** bitstream.c:182-232 [bitstream_w_write]; bit positions are [uint32_t] here
    (lines 184,199-200) while the stream offset is a [size_t]. *)
Definition w_write (s : bstream) (src : Z) (bits : Z) : bs_result bstream :=
  if bits <=? 0 then Ret 0 s
  else if bits >? 56 then Ret (-1) s
  else
    let bit_start := u32 (bs_off s) in
    let bit_end := u32 (bit_start + bits) in
    let offset := bit_start / 8 in
    let size := u64 (u32 (bit_end + 7) / 8 - offset) in
    if u64 (offset + size) >? zlen (bs_buf s) then Ret (-1) s
    else
      let src1 := Z.land src (u64 (Z.shiftl 1 bits) - 1) in
      let be := Z.land bit_end 7 in
      let src2 := if be =? 0 then src1 else u64 (Z.shiftl src1 (8 - be)) in
      match w_loop (Z.to_nat size) (bs_buf s) offset src2 with
      | None => Fault
      | Some buf' => Ret 0 {| bs_buf := buf'; bs_off := bs_off s + bits |}
      end.

(** bitstream.c:102-107: read loop *)
Fixpoint r_loop (n : nat) (buf : bytes) (offset result : Z) : option Z :=
  match n with
  | O => Some result
  | S n' =>
    match zget buf (offset + 1) with
    | None => None
    | Some b => r_loop n' buf (offset + 1) (Z.lor (u64 (Z.shiftl result 8)) b)
    end
  end.

(** bitstream.c:59-115 [bitstream_r_read]; the returned pair is the stream and
    the value stored in *dst (None: not stored). *)
Definition r_read (s : bstream) (bits : Z) : bs_result (bstream * option Z) :=
  if bits <=? 0 then Ret 0 (s, Some 0)
  else if bits >? 56 then Ret (-1) (s, None)
  else
    let bit_start := bs_off s in
    let bit_end := bit_start + bits in
    let offset := bit_start / 8 in
    let size := (bit_end + 7) / 8 - offset in
    if offset + size >? zlen (bs_buf s) then Ret (-1) (s, None)
    else
      let bs := Z.land bit_start 7 in
      let be := Z.land bit_end 7 in
      match zget (bs_buf s) offset with
      | None => Fault
      | Some b0 =>
        let result0 := if bs =? 0 then b0 else Z.land b0 (Z.shiftr 255 bs) in
        match r_loop (Z.to_nat (size - 1)) (bs_buf s) offset result0 with
        | None => Fault
        | Some r =>
          Ret 0 ({| bs_buf := bs_buf s; bs_off := bs_off s + bits |},
                 Some (if be =? 0 then r else Z.shiftr r (8 - be)))
        end
      end.

(** memcpy into / out of a buffer; [None] when a byte would be outside *)
Fixpoint copy_in (buf : bytes) (offset : Z) (src : bytes) : option bytes :=
  match src with
  | [] => Some buf
  | b :: src' => match zset buf offset b with None => None | Some buf' => copy_in buf' (offset + 1) src' end
  end.
Fixpoint copy_out (buf : bytes) (offset : Z) (n : nat) : option bytes :=
  match n with
  | O => Some []
  | S n' =>
    match zget buf offset, copy_out buf (offset + 1) n' with
    | Some b, Some r => Some (b :: r)
    | _, _ => None
    end
  end.

(** bitstream.c:156-173 [bitstream_w_memcpy].  Line 171 adds the written size
    to the local variable [offset], not to the stream: the stream's bit offset
    is unchanged after the copy. *)
Definition w_memcpy (s : bstream) (src : bytes) : bs_result bstream :=
  let s1 := bs_pad s in
  let offset := bs_off s1 / 8 in
  if offset + zlen src >? zlen (bs_buf s1) then Ret (-1) s1
  else match copy_in (bs_buf s1) offset src with
       | None => Fault
       | Some buf' => Ret 0 {| bs_buf := buf'; bs_off := bs_off s1 |}
       end.

(** bitstream.c:34-50 [bitstream_r_memcpy] *)
Definition r_memcpy (s : bstream) (n : nat) : bs_result (bstream * bytes) :=
  let s1 := bs_pad s in
  let offset := bs_off s1 / 8 in
  if offset + Z.of_nat n >? zlen (bs_buf s1) then Ret (-1) (s1, [])
  else match copy_out (bs_buf s1) offset n with
       | None => Fault
       | Some d => Ret 0 ({| bs_buf := bs_buf s1; bs_off := bs_off s1 + Z.of_nat n * 8 |}, d)
       end.

(** A client writing a list of items, and one reading a list of formats. *)
Inductive witem := WField (v bits : Z) | WPad | WBytes (b : bytes).
Inductive rfmt := RField (bits : Z) | RPad | RBytes (n : nat).

Definition fmt_of (i : witem) : rfmt :=
  match i with WField _ bits => RField bits | WPad => RPad | WBytes b => RBytes (length b) end.

(** [None]: fault or an error return *)
Fixpoint write_all (s : bstream) (l : list witem) : option bstream :=
  match l with
  | [] => Some s
  | i :: l' =>
    match (match i with
           | WField v bits => w_write s v bits
           | WPad => Ret 0 (bs_pad s)
           | WBytes b => w_memcpy s b end) with
    | Ret 0 s' => write_all s' l'
    | _ => None
    end
  end.

Inductive ritem := RIField (v : Z) | RIPad | RIBytes (b : bytes).
Fixpoint read_all (s : bstream) (l : list rfmt) : option (list ritem) :=
  match l with
  | [] => Some []
  | f :: l' =>
    match (match f with
           | RField bits => match r_read s bits with
                            | Ret 0 (s', Some v) => Some (s', RIField v)
                            | _ => None end
           | RPad => Some (bs_pad s, RIPad)
           | RBytes n => match r_memcpy s n with Ret 0 (s', b) => Some (s', RIBytes b) | _ => None end
           end) with
    | None => None
    | Some (s', it) => match read_all s' l' with None => None | Some r => Some (it :: r) end
    end
  end.
