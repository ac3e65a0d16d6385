(** Property theorems C06-C09 (time TLV, metric, time vector, sequence numbers). *)
From Verif Require Import Base CodecModel CodecSpec CodecProofs.

(** C06: inside the supported range the code chosen is the least code whose
    exact RFC 5497 value is not below the time. *)
Theorem C06_time_encode_is_least_sufficient_code :
  forall t, TIMETLV_MIN <= t <= TIMETLV_MAX ->
  exists c, timetlv_encode t = Some c /\ best_time_code t c.
Proof. exact timetlv_encode_best. Qed.

(** C06: for every 64-bit time the decoded value is never shorter, and (inside
    the range) no other code decodes to a shorter sufficient value. *)
Theorem C06_time_roundtrip_never_shortens_and_is_tight :
  forall t, is_u64 t ->
  exists c, timetlv_encode t = Some c /\ is_u8 c /\
    t <= timetlv_decode c /\
    (t <= TIMETLV_MAX ->
     forall c', is_u8 c' -> t <= timetlv_decode c' -> timetlv_decode c <= timetlv_decode c').
Proof. exact timetlv_roundtrip. Qed.

Theorem C06_time_encode_monotone :
  forall t1 t2 c1 c2, is_u64 t1 -> is_u64 t2 -> t1 <= t2 ->
  timetlv_encode t1 = Some c1 -> timetlv_encode t2 = Some c2 -> c1 <= c2.
Proof. exact timetlv_encode_mono. Qed.

(** C06: the decoder is the RFC formula rounded down to whole milliseconds. *)
Theorem C06_time_decode_is_rfc_formula :
  forall c, 1 <= c <= 254 -> timetlv_decode c = time_num c / 1024.
Proof. exact timetlv_decode_spec. Qed.

(** C06: re-encoding a decoded code preserves the time, and the code itself
    from 72 (about 0.5 s) upwards. *)
Theorem C06_time_decode_encode :
  forall c, is_u8 c ->
  exists c', timetlv_encode (timetlv_decode c) = Some c' /\
             timetlv_decode c' = timetlv_decode c /\ (72 <= c -> c' = c).
Proof. exact timetlv_decode_encode. Qed.

(** C06: the stronger claim "re-encoding gives the same code" is false: codes
    below 72 share millisecond values. *)
Theorem C06_time_code_roundtrip_refuted :
  exists c, is_u8 c /\ timetlv_encode (timetlv_decode c) <> Some c.
Proof. exists 2. split; [unfold is_u8; lia|vm_compute; discriminate]. Qed.

Example C06_ex : timetlv_encode 5000 = Some 98 /\ timetlv_decode 98 = 5000 /\
                 timetlv_encode 5001 = Some 99 /\ timetlv_decode 99 = 5500 /\
                 TIMETLV_MIN <= 5001 <= TIMETLV_MAX.
Proof. repeat split; vm_compute; congruence. Qed.

(** C07 *)
Theorem C07_metric_encode_is_least_sufficient_code :
  forall m, METRIC_MIN <= m <= METRIC_MAX ->
  exists b0 b1, metric_encode m = MetricOk b0 b1 /\ 0 <= b0 < 16 /\ is_u8 b1 /\
     best_metric_code m (256 * b0 + b1).
Proof. exact metric_encode_ok. Qed.

Theorem C07_metric_decode_is_rfc_formula :
  forall b0 b1, is_u8 b0 -> is_u8 b1 ->
  metric_decode b0 b1 = metric_value (256 * (b0 mod 16) + b1).
Proof. exact metric_decode_spec. Qed.

Theorem C07_metric_code_roundtrip :
  forall b0 b1, is_u8 b0 -> is_u8 b1 ->
  metric_encode (metric_decode b0 b1) = MetricOk (b0 mod 16) b1.
Proof. exact metric_roundtrip_code. Qed.

(** C07: the rejected metrics are exactly those below the minimum and from the
    "infinite" value on; the 254 values between maximum and infinite are
    accepted (and encoded as the maximum, see the refutation below). *)
Theorem C07_metric_encode_rejects_exactly :
  forall m, is_u32 m ->
  (metric_encode m = MetricErr <-> (m < METRIC_MIN \/ METRIC_INFINITE <= m)).
Proof. exact metric_encode_err. Qed.

(** C07: "an accepted metric is never shortened" is false above METRIC_MAX. *)
Theorem C07_metric_never_shortened_refuted :
  exists m b0 b1, is_u32 m /\ metric_encode m = MetricOk b0 b1 /\ metric_decode b0 b1 < m.
Proof. exists 0xfffffe, 0x0f, 0xff. repeat split; vm_compute; congruence. Qed.

Example C07_ex : metric_encode 1000 = MetricOk 2 57 /\ metric_decode 2 57 = 1000 /\
                 metric_encode 1001 = MetricOk 2 58 /\ metric_decode 2 58 = 1004 /\
                 METRIC_MIN <= 1001 <= METRIC_MAX.
Proof. repeat split; vm_compute; congruence. Qed.

(** C08 *)
Theorem C08_vector_lookup :
  forall v hop, timetlv_get_from_vector v hop =
  Some (if Z.odd (Z.of_nat (length v)) then vector_value v hop else 255).
Proof. exact vector_correct. Qed.

Example C08_ex : timetlv_get_from_vector [10; 1; 20; 4; 30] 3 = Some 20 /\
                 timetlv_get_from_vector [10; 1; 20; 4; 30] 5 = Some 30 /\
                 timetlv_get_from_vector [10; 1] 0 = Some 255.
Proof. repeat split. Qed.

(** C09 *)
Theorem C09_seqno_difference :
  forall a b, is_u16 a -> is_u16 b ->
  -32768 <= seqno_difference a b <= 32768 /\ ahead a b (seqno_difference a b).
Proof. exact seqno_difference_correct. Qed.

Theorem C09_seqno_is_larger_iff_ahead :
  forall a b, is_u16 a -> is_u16 b ->
  (seqno_is_larger a b = true <-> exists k, 1 <= k <= 32767 /\ ahead a b k).
Proof. exact seqno_larger_correct. Qed.

Theorem C09_seqno_is_smaller_iff_behind :
  forall a b, is_u16 a -> is_u16 b ->
  (seqno_is_smaller a b = true <-> exists k, 1 <= k <= 32768 /\ ahead b a k).
Proof. exact seqno_smaller_correct. Qed.

Theorem C09_seqno_trichotomy :
  forall a b, is_u16 a -> is_u16 b ->
  (seqno_is_larger a b = true -> seqno_is_smaller a b = false) /\
  (seqno_is_smaller a b = true -> seqno_is_larger a b = false) /\
  (seqno_is_larger a b = true -> seqno_is_smaller b a = true) /\
  ((a - b) mod 65536 <> 32768 -> (seqno_is_smaller b a = true <-> seqno_is_larger a b = true)).
Proof. exact seqno_exclusive. Qed.

(** C09: at distance 2^15 each of the two numbers is "smaller" than the other. *)
Theorem C09_seqno_antisymmetry_refuted :
  exists a b, is_u16 a /\ is_u16 b /\ seqno_is_smaller a b = true /\ seqno_is_smaller b a = true.
Proof. exists 0, 32768. unfold is_u16. repeat split; lia. Qed.

Example C09_ex : seqno_difference 3 65534 = 5 /\ seqno_is_larger 3 65534 = true /\
                 seqno_is_smaller 65534 3 = true.
Proof. repeat split. Qed.

Print Assumptions C06_time_encode_is_least_sufficient_code.
Print Assumptions C06_time_roundtrip_never_shortens_and_is_tight.
Print Assumptions C06_time_encode_monotone.
Print Assumptions C06_time_decode_is_rfc_formula.
Print Assumptions C06_time_decode_encode.
Print Assumptions C06_time_code_roundtrip_refuted.
Print Assumptions C07_metric_encode_is_least_sufficient_code.
Print Assumptions C07_metric_decode_is_rfc_formula.
Print Assumptions C07_metric_code_roundtrip.
Print Assumptions C07_metric_encode_rejects_exactly.
Print Assumptions C07_metric_never_shortened_refuted.
Print Assumptions C08_vector_lookup.
Print Assumptions C09_seqno_difference.
Print Assumptions C09_seqno_is_larger_iff_ahead.
Print Assumptions C09_seqno_is_smaller_iff_behind.
Print Assumptions C09_seqno_trichotomy.
Print Assumptions C09_seqno_antisymmetry_refuted.
