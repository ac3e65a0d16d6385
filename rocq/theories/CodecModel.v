(** Model of src/librfc5444/rfc5444.c (time and metric TLV codecs, sequence
    number arithmetic) and of the inline functions of
    include/oonf/librfc5444/rfc5444.h. *)
From Verif Require Import Base.

(** include/oonf/librfc5444/rfc5444.h:53-72 *)
Definition TIMETLV_MAX : Z := 0xdac00000.
Definition TIMETLV_MIN : Z := 1.
Definition METRIC_MAX : Z := 0xffff00.
Definition METRIC_MIN : Z := 1.
Definition METRIC_INFINITE : Z := 0xffffff.
Definition UINT64_MAX : Z := 0xffffffffffffffff.

(** rfc5444.c:58-77 [rfc5497_timetlv_get_from_vector].  The index loop is
    transcribed with fuel; reading outside of the vector is [None]. *)
Definition vget (v : bytes) (i : Z) : option Z :=
  if (i <? 0) then None else nth_error v (Z.to_nat i).

Fixpoint timetlv_vec_loop (fuel : nat) (v : bytes) (len hop i : Z) : option Z :=
  match fuel with
  | O => None
  | S f =>
    if i <? len then
      match vget v i with
      | None => None
      | Some d => if hop <=? d then vget v (i - 1)
                  else timetlv_vec_loop f v len hop (i + 2)
      end
    else vget v (i - 1)
  end.

Definition timetlv_get_from_vector (v : bytes) (hop : Z) : option Z :=
  let len := Z.of_nat (length v) in
  if Z.land len 1 =? 0 then Some 255
  else timetlv_vec_loop (S (length v)) v len hop 1.

(** rfc5444.c:105-115: the loop halving (rounding up) large times.
    Result: (b, decoded); [None] when the fuel is exhausted. *)
Fixpoint tt_halve (fuel : nat) (b d : Z) : option (Z * Z) :=
  match fuel with
  | O => None
  | S f => if d >? 1875 then tt_halve f (u32 (b + 1)) (Z.shiftr (u64 (d + 1)) 1)
           else Some (b, d)
  end.

(** rfc5444.c:116-122: the loop doubling small times. *)
Fixpoint tt_double (fuel : nat) (b d : Z) : option (Z * Z) :=
  match fuel with
  | O => None
  | S f => if d <? 1000 then tt_double f (u32 (b - 1)) (u64 (Z.shiftl d 1))
           else Some (b, d)
  end.

(** rfc5444.c:89-126 [rfc5497_timetlv_encode] *)
Definition timetlv_encode (t : Z) : option Z :=
  if t <? TIMETLV_MIN then Some 0
  else if t >? TIMETLV_MAX then Some 255
  else
    match (if t >=? 1000 then tt_halve 65 10 t else tt_double 65 10 t) with
    | None => None
    | Some (b, d) =>
      let a := u32 (u64 (u64 (d - 1000) + 124) / 125) in
      Some (u8 (u32 (a + u32 (Z.shiftl b 3))))
    end.

(** rfc5444.c:135-173 [rfc5497_timetlv_decode] *)
Definition timetlv_decode (e : Z) : Z :=
  if e =? 0 then 0
  else if e =? 255 then UINT64_MAX
  else
    let a := Z.land e 7 in
    let b := Z.shiftr e 3 in
    if b <=? 10 then Z.shiftr (u64 (1000 + u64 (125 * a))) (10 - b)
    else u64 (Z.shiftl (u64 (1000 + u64 (125 * a))) (b - 10)).

(** rfc5444.c:204-211: loop of [rfc7181_metric_encode] *)
Fixpoint metric_halve (fuel : nat) (a d : Z) : option (Z * Z) :=
  match fuel with
  | O => None
  | S f => if d >? 512 then metric_halve f (u8 (a + 1)) (Z.shiftr (u32 (d + 1)) 1)
           else Some (a, d)
  end.

Inductive metric_result :=
| MetricErr                    (* return -1, field untouched *)
| MetricOk (b0 b1 : Z)         (* return 0, field bytes *)
| MetricLoop.                  (* fuel exhausted: excluded by theorem *)

(** rfc5444.c:184-219 [rfc7181_metric_encode] *)
Definition metric_encode (m : Z) : metric_result :=
  if (m <? METRIC_MIN) || (m >=? METRIC_INFINITE) then MetricErr
  else if m >? METRIC_MAX then MetricOk 0x0f 0xff
  else
    match metric_halve 33 0 (u32 (m + 256)) with
    | None => MetricLoop
    | Some (a, d) => MetricOk a (u8 (d - 257))
    end.

(** rfc5444.c:226-230 [rfc7181_metric_decode]; the C expression is computed in
    [int]: the largest value is 512 << 15, so no signed overflow. *)
Definition metric_decode (b0 b1 : Z) : Z :=
  let exponent := Z.land b0 15 in
  u32 (Z.shiftl (257 + b1) exponent - 256).

(** rfc5444.h:123-146 flag helpers on byte 0 of the metric field *)
Definition metric_has_flag (b0 flag : Z) : bool := negb (Z.land b0 (u8 flag) =? 0).
Definition metric_set_flag (b0 flag : Z) : Z := u8 (Z.lor b0 (u8 flag)).
Definition metric_reset_flag (b0 flag : Z) : Z := u8 (Z.land b0 (Z.lnot (u8 flag))).

(** rfc5444.c:238-250 [rfc5444_seqno_difference] *)
Definition seqno_difference (s1 s2 : Z) : Z :=
  let diff := s1 - s2 in
  if diff >? 32768 then diff - 65536
  else if diff <? -32768 then diff + 65536
  else diff.

(** rfc5444.h:95-104 [rfc5444_seqno_is_larger] *)
Definition seqno_is_larger (s1 s2 : Z) : bool :=
  ((s1 >? s2) && (s1 - s2 <? 32768)) || ((s2 >? s1) && (s2 - s1 >? 32768)).

(** rfc5444.h:112-115 [rfc5444_seqno_is_smaller] *)
Definition seqno_is_smaller (s1 s2 : Z) : bool :=
  negb (s1 =? s2) && negb (seqno_is_larger s1 s2).
