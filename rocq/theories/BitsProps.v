(** Property theorems C17-C19 (bitmap256, bit streams). *)
From Verif Require Import Base BitsModel BitsSpec BitsProofs.

(** C17: after any history of set/reset calls on a cleared map, a bit reads as
    the last operation on that position (false if there was none). *)
Theorem C17_bitmap_is_a_set :
  forall ops, Forall (fun o => is_u8 (bm_op_pos o)) ops ->
  exists m', bm_run bm_zero ops = Some m' /\
  forall pos, is_u8 pos -> bm_get m' pos = Some (set_spec ops false pos).
Proof. exact bm_history. Qed.

(** C17: the same from an arbitrary map. *)
Theorem C17_bitmap_history_from_any_map :
  forall ops m, bm_wf m -> Forall (fun o => is_u8 (bm_op_pos o)) ops ->
  exists m', bm_run m ops = Some m' /\ bm_wf m' /\
  forall pos b, is_u8 pos -> bm_get m pos = Some b -> bm_get m' pos = Some (set_spec ops b pos).
Proof. exact bm_run_spec. Qed.

(** C17: the subset test is set inclusion. *)
Theorem C17_bitmap_subset_is_inclusion :
  forall s t, bm_wf s -> bm_wf t ->
  (bm_is_subset s t = true <->
   forall pos, is_u8 pos -> bm_get t pos = Some true -> bm_get s pos = Some true).
Proof. exact bm_subset_set. Qed.

Example C17_ex :
  option_map (fun m => (bm_get m 200, bm_get m 63, bm_get m 64)) (bm_run bm_zero [BmSet 200; BmSet 63; BmReset 63; BmSet 64])
  = Some (Some true, Some false, Some true) /\ bm_wf bm_zero.
Proof. split; [vm_compute; reflexivity|apply bm_zero_wf]. Qed.

(** C18: every sequence of fields (1..56 bits) and pads that fits into the
    buffer is written without error and read back exactly. *)
Theorem C18_bitstream_roundtrip :
  forall len l, 8 * Z.of_nat len + 128 <= 2 ^ 32 -> Forall plain l ->
  end_all 0 l <= 8 * Z.of_nat len ->
  exists s', write_all (w_init len) l = Some s' /\ length (bs_buf s') = len /\
    bs_off s' = end_all 0 l /\
    read_all (r_init (bs_buf s')) (map fmt_of l) = Some (map expect l).
Proof. exact stream_roundtrip. Qed.

(** C18: one write in detail: exactly the bits of the field are or-ed into the
    stream, every other bit keeps its value; if it does not fit, nothing changes. *)
Theorem C18_bitstream_write_exact :
  forall s src bits,
  all_bytes (bs_buf s) -> small_buf (bs_buf s) -> 0 <= bs_off s <= 8 * zlen (bs_buf s) ->
  1 <= bits <= 56 -> is_u64 src ->
  if bs_off s + bits <=? 8 * zlen (bs_buf s) then
    exists s', w_write s src bits = Ret 0 s' /\ bs_off s' = bs_off s + bits /\
      zlen (bs_buf s') = zlen (bs_buf s) /\ all_bytes (bs_buf s') /\
      forall i, 0 <= i < 8 * zlen (bs_buf s) -> bit_at (bs_buf s') i =
        bit_at (bs_buf s) i || ((bs_off s <=? i) && (i <? bs_off s + bits) &&
                                Z.testbit src (bs_off s + bits - 1 - i))
  else w_write s src bits = Ret (-1) s.
Proof. exact w_write_spec. Qed.

Theorem C18_bitstream_read_exact :
  forall s bits,
  all_bytes (bs_buf s) -> 0 <= bs_off s <= 8 * zlen (bs_buf s) -> 1 <= bits <= 56 ->
  if bs_off s + bits <=? 8 * zlen (bs_buf s) then
    exists v, r_read s bits = Ret 0 ({| bs_buf := bs_buf s; bs_off := bs_off s + bits |}, Some v) /\
      0 <= v /\ forall m, 0 <= m -> Z.testbit v m = (m <? bits) && bit_at (bs_buf s) (bs_off s + bits - 1 - m)
  else r_read s bits = Ret (-1) (s, None).
Proof. exact r_read_spec. Qed.

Theorem C18_bitstream_no_access_outside :
  forall s src bits, all_bytes (bs_buf s) -> small_buf (bs_buf s) ->
  0 <= bs_off s <= 8 * zlen (bs_buf s) -> is_u64 src ->
  w_write s src bits <> Fault /\
  (bits > 56 -> w_write s src bits = Ret (-1) s) /\
  (1 <= bits <= 56 -> bs_off s + bits > 8 * zlen (bs_buf s) -> w_write s src bits = Ret (-1) s).
Proof. exact w_write_safe. Qed.

Theorem C18_bitstream_read_no_access_outside :
  forall s bits, all_bytes (bs_buf s) -> 0 <= bs_off s <= 8 * zlen (bs_buf s) ->
  r_read s bits <> Fault /\
  (1 <= bits <= 56 -> bs_off s + bits > 8 * zlen (bs_buf s) -> r_read s bits = Ret (-1) (s, None)).
Proof. exact r_read_safe. Qed.

Example C18_ex :
  let l := [WField 5 3; WField 0x123456789 36; WPad; WField 1 1; WField 0xffffffffffffff 56] in
  Forall plain l /\ end_all 0 l = 97 /\
  option_map (fun s => (bs_buf s, read_all (r_init (bs_buf s)) (map fmt_of l))) (write_all (w_init 13) l)
  = Some ([162; 70; 138; 207; 18; 255; 255; 255; 255; 255; 255; 255; 128], Some (map expect l)).
Proof.
  cbv zeta. split; [repeat constructor; unfold is_u64; lia|]. split; vm_compute; reflexivity.
Qed.

(** C19: a bulk copy does not advance the write position: the following item
    overwrites (or-s into) the copied bytes. *)
Theorem C19_bulk_copy_advances_refuted :
  exists l s', write_all (w_init 4) l = Some s' /\ end_all 0 l <= 32 /\
    bs_off s' <> end_all 0 l /\
    read_all (r_init (bs_buf s')) (map fmt_of l) <> Some (map expect l).
Proof.
  exists [WBytes [1; 2]; WBytes [3]], {| bs_buf := [3; 2; 0; 0]; bs_off := 0 |}.
  split; [vm_compute; reflexivity|]. split; [vm_compute; discriminate|].
  split; vm_compute; discriminate.
Qed.

Print Assumptions C17_bitmap_is_a_set.
Print Assumptions C17_bitmap_history_from_any_map.
Print Assumptions C17_bitmap_subset_is_inclusion.
Print Assumptions C18_bitstream_roundtrip.
Print Assumptions C18_bitstream_write_exact.
Print Assumptions C18_bitstream_read_exact.
Print Assumptions C18_bitstream_no_access_outside.
Print Assumptions C18_bitstream_read_no_access_outside.
Print Assumptions C19_bulk_copy_advances_refuted.
