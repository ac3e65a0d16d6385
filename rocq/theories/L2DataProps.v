(** Layer-2 values (C91-C95). *)
From Verif Require Import Base BufLemmas SplitLemmas NetaddrModel NetaddrSpec StrBase StringModel StringSpec StringProofs StringProps
  L2DataModel L2DataSpec L2DataProofs L2KeyProofs.

(** ** C91: values and their origins *)

(** C91: after any number of writes into an object without value, the owner is
    the first writer of the highest priority and the value is what it wrote last. *)
Theorem C91_owner prio m mm d ws : reading d = None -> ws <> [] -> mm = Some m \/ (mm = None /\ d_meta d = Some m) ->
  exists d' ow va, write_all prio d mm ws = Some d' /\ reading d' = Some (m, va, ow) /\ decided prio ws ow va.
Proof. exact (write_empty prio m mm d ws). Qed.
(** C91: the same from an object with a value (its value counts as the first write) *)
Theorem C91_owner_later prio m mm o v d ws : mm = None \/ mm = Some m -> reading d = Some (m, v, o) ->
  exists d' ow va, write_all prio d mm ws = Some d' /\ reading d' = Some (m, va, ow) /\ decided prio ((o, v) :: ws) ow va.
Proof. intros M. exact (write_owned prio m mm o v M ws d). Qed.
(** C91: [decided] determines owner and value *)
Theorem C91_decided_unique prio ws o v o' v' : decided prio ws o v -> decided prio ws o' v' -> o = o' /\ v = v'.
Proof.
  intros (b & v0 & a & E & B & A & V) (b' & v0' & a' & E' & B' & A' & V'). rewrite E in E'.
  assert (forall (b b' : list write) o v0 a o' v0' a', b ++ (o, v0) :: a = b' ++ (o', v0') :: a' ->
     (length b < length b')%nat -> In (o, v0) b') as SH.
  { clear. intros b. induction b as [|x b IH]; intros [|x' b'] o v0 a o' v0' a' E L; cbn in *; try lia.
    - injection E as <- _. left; reflexivity.
    - injection E as _ E. right. apply (IH b' o v0 a o' v0' a' E). lia. }
  destruct (Nat.lt_trichotomy (length b) (length b')) as [L|[L|L]].
  - exfalso. pose proof (SH _ _ _ _ _ _ _ _ E' L) as I1. specialize (B' _ I1). cbn in B'.
    assert (In (o', v0') a \/ (o', v0') = (o, v0)) as [I2|Q].
    { assert (In (o', v0') (b ++ (o, v0) :: a)) as I by (rewrite E'; apply in_or_app; right; left; reflexivity).
      apply in_app_or in I. destruct I as [I|[I|I]]; [|right; congruence|left; exact I]. specialize (B _ I). cbn in B. lia. }
    + specialize (A _ I2). cbn in A. lia.
    + injection Q as -> ->. lia.
  - assert (b = b' /\ (o, v0) :: a = (o', v0') :: a') as [-> Q] by (apply app_inj_len; [exact E'|unfold zlen; lia]).
    injection Q as -> -> ->. split; congruence.
  - exfalso. pose proof (SH _ _ _ _ _ _ _ _ (eq_sym E') L) as I1. specialize (B _ I1). cbn in B.
    assert (In (o, v0) a' \/ (o, v0) = (o', v0')) as [I2|Q].
    { assert (In (o, v0) (b' ++ (o', v0') :: a')) as I by (rewrite <- E'; apply in_or_app; right; left; reflexivity).
      apply in_app_or in I. destruct I as [I|[I|I]]; [|right; congruence|left; exact I]. specialize (B' _ I). cbn in B'. lia. }
    + specialize (A' _ I2). cbn in A'. lia.
    + injection Q as -> ->. lia.
Qed.
Example C91_ex : let prio o := o * 10 in let m := mkMeta 4 T_INT 1 in
  exists d', write_all prio (mkData 0 (Some m) None) None [(1, 5); (3, 7); (2, 9); (3, 8); (1, 6)] = Some d' /\
    reading d' = Some (m, 8, 3) /\ decided prio [(1, 5); (3, 7); (2, 9); (3, 8); (1, 6)] 3 8.
Proof.
  eexists. split; [vm_compute; reflexivity|]. split; [reflexivity|].
  exists [(1, 5)], 7, [(2, 9); (3, 8); (1, 6)]. split; [reflexivity|]. split; [|split; [|reflexivity]].
  - intros w [<-|[]]. cbn. lia.
  - intros w [<-|[<-|[<-|[]]]]; cbn; lia.
Qed.

(** C91: for an object with a value, "changed" is reported if and only if value
    or metadata change.  Missing: objects without value, see below. *)
Theorem C91_changed_partial prio d o mm v m0 v0 o0 b d' : reading d = Some (m0, v0, o0) ->
  data_set prio d o mm v = Some (b, d') ->
  exists m1 v1 o1, reading d' = Some (m1, v1, o1) /\ (b = true <-> m_id m0 <> m_id m1 \/ v0 <> v1).
Proof.
  intros R S. unfold reading in R. destruct d as [dv [dm|] [dow|]]; cbn in R; try discriminate. injection R as -> -> ->.
  unfold data_set in S; cbn [d_meta d_org d_val] in S. destruct mm as [mt|]; cbv iota in S;
    (destruct ((o0 =? o) || (prio o0 <? prio o)); injection S as <- <-; cbn [reading d_org d_meta d_val meta_is]; do 3 eexists; (split; [reflexivity|]);
     [rewrite orb_true_iff, !negb_true_iff, !Z.eqb_neq; lia|split; [discriminate|lia]]).
Qed.
Example C91_ex_changed : let m := mkMeta 4 T_INT 1 in
  data_set (fun o => o) (mkData 5 (Some m) (Some 1)) 2 None 6 = Some (true, mkData 6 (Some m) (Some 2)).
Proof. reflexivity. Qed.
(** C91: a first value 0 is not reported, although the object had no value before. *)
Theorem C91_changed_refuted : exists prio d o v d', reading d = None /\ d_meta d <> None /\
  data_set prio d o None v = Some (false, d') /\ reading d' <> reading d.
Proof.
  exists (fun _ => 0), (mkData 0 (Some (mkMeta 4 T_INT 1)) None), 1, 0. eexists. split; [reflexivity|]. split; [discriminate|].
  split; [vm_compute; reflexivity|]. discriminate.
Qed.
(** C91: an object whose value was removed has also lost its metadata; the next
    write with the object's default metadata is an assertion failure. *)
Theorem C91_default_metadata_refuted : exists prio m d d1 o v, write_all prio d None [(o, v)] = Some d1 /\
  reading d1 = Some (m, v, o) /\ forall o' v', data_set prio (data_reset d1) o' None v' = None.
Proof.
  exists (fun _ => 0), (mkMeta 4 T_INT 1), (mkData 0 (Some (mkMeta 4 T_INT 1)) None), (mkData 7 (Some (mkMeta 4 T_INT 1)) (Some 1)), 1, 7.
  split; [reflexivity|]. split; [reflexivity|]. intros; reflexivity.
Qed.
(** C91: a removed object can be written with explicit metadata. *)
Theorem C91_reset prio d o m v : reading (data_reset d) = None /\
  exists d', data_set prio (data_reset d) o (Some m) v = Some (true, d') /\ reading d' = Some (m, v, o).
Proof. split; [reflexivity|]. eexists. split; reflexivity. Qed.

(** ** C92: numbers *)

(** C92: a number is stored as the same quantity in the unit of the metadata, or
    rounded down if that unit is coarser.  Missing: negative numbers in the
    second case (false, see below) and scales that do not divide each other. *)
Theorem C92_store_partial prio d o m n s : d_org d = None -> 0 < m_scale m -> 0 < s -> (s | m_scale m) \/ (m_scale m | s) ->
  is_s64 n -> (s <= m_scale m -> is_s64 (n * (m_scale m / s))) -> (m_scale m < s -> 0 <= n) ->
  exists b d' v, data_set_int64 prio d o (Some m) n s = Some (b, d') /\ reading d' = Some (m, v, o) /\
    (s <= m_scale m -> same_quantity n s v (m_scale m)) /\ (m_scale m < s -> rounded_down n s v (m_scale m)).
Proof.
  intros O M S D N F P. assert (forall v, exists b, data_set prio d o (Some m) v = Some (b, mkData v (Some m) (Some o))) as W.
  { intros v. unfold data_set. rewrite O. destruct (d_meta d); eexists; reflexivity. }
  unfold data_set_int64. destruct (Z.leb_spec s (m_scale m)) as [L|L].
  - assert (s | m_scale m) as D1. { destruct D as [D|D]; [exact D|]. apply Z.divide_pos_le in D; [|lia]. replace s with (m_scale m) by lia. apply Z.divide_refl. }
    destruct (scale_in_fine m n s ltac:(lia) D1 (F L)) as (v & -> & Q). destruct (W v) as (b & ->).
    exists b, (mkData v (Some m) (Some o)), v. split; [reflexivity|]. split; [reflexivity|]. split; [intros; exact Q|lia].
  - assert (m_scale m | s) as D1. { destruct D as [D|D]; [|exact D]. apply Z.divide_pos_le in D; lia. }
    destruct (scale_in_coarse m n s ltac:(lia) D1) as (v & -> & Q); [split; [apply P; lia|unfold is_s64 in N; lia]|]. destruct (W v) as (b & ->).
    exists b, (mkData v (Some m) (Some o)), v. split; [reflexivity|]. split; [reflexivity|]. split; [lia|intros; exact Q].
Qed.
(** C92: reading gives the stored number (scale 0 or that of the metadata), the
    same quantity in a finer unit, or the quantity rounded down in a coarser one.
    Missing: negative numbers in the last case (false, see below). *)
Theorem C92_read_partial d m v o s : reading d = Some (m, v, o) -> m_type m = T_INT -> 0 < m_scale m -> is_s64 v -> 0 <= s ->
  (s = 0 \/ s = m_scale m -> read_int64 d s = Some (Some v)) /\
  (m_scale m < s -> (m_scale m | s) -> is_s64 (v * (s / m_scale m)) ->
     exists n, read_int64 d s = Some (Some n) /\ same_quantity v (m_scale m) n s) /\
  (0 < s <= m_scale m -> (s | m_scale m) -> 0 <= v ->
     exists n, read_int64 d s = Some (Some n) /\ rounded_down v (m_scale m) n s).
Proof.
  intros R T M V S. unfold reading in R. destruct d as [dv [dm|] [dow|]]; cbn in R; try discriminate. injection R as -> -> ->.
  unfold read_int64; cbn [d_org d_meta d_val]. rewrite T. change (T_INT =? T_INT) with true. cbv iota. split; [|split].
  - intros Q. rewrite scale_out_same by assumption. reflexivity.
  - intros L D F. destruct (scale_out_fine m v s ltac:(lia) D F) as (n & -> & Q). exists n. auto.
  - intros L D P. destruct (scale_out_coarse m v s L D) as (n & -> & Q); [unfold is_s64 in V; lia|]. exists n. auto.
Qed.
(** C92: a number that is not negative and is written and read with the same scale comes back *)
Theorem C92_round_trip prio d o m n s : d_org d = None -> m_type m = T_INT -> 0 < s <= m_scale m -> (s | m_scale m) ->
  0 <= n -> is_s64 (n * (m_scale m / s)) ->
  exists b d', data_set_int64 prio d o (Some m) n s = Some (b, d') /\ read_int64 d' s = Some (Some n).
Proof.
  intros O T S D N F. pose proof (div_mul (m_scale m) s ltac:(lia) D) as K. assert (0 < m_scale m / s) as KP by nia.
  destruct (C92_store_partial prio d o m n s) as (b & d' & v & E & R & Q & _); [assumption|lia|lia|left; assumption|unfold is_s64 in *; nia|intros; assumption|lia|].
  exists b, d'. split; [exact E|]. specialize (Q ltac:(lia)). unfold same_quantity in Q.
  assert (v = n * (m_scale m / s)) as Ev. { rewrite <- K in Q at 1. nia. }
  destruct (C92_read_partial d' m v o s R T ltac:(lia) ltac:(rewrite Ev; exact F) ltac:(lia)) as (_ & _ & C).
  destruct (C ltac:(lia) D ltac:(nia)) as (n' & -> & Rd). do 2 f_equal. unfold rounded_down in Rd.
  set (k := m_scale m / s) in *. clearbody k. rewrite Ev, <- K in Rd. clear - Rd S KP. nia.
Qed.
Example C92_ex : let m := mkMeta 22 T_INT 1000000 in
  exists d, data_set_int64 (fun _ => 0) (mkData 0 (Some m) None) 1 None 1234 1000 = Some (true, d) /\ d_val d = 1234000 /\
    read_int64 d 1000 = Some (Some 1234) /\ read_int64 d 1 = Some (Some 1) /\ read_int64 d 1000000000 = Some (Some 1234000000).
Proof. eexists. split; [vm_compute; reflexivity|]. repeat split; vm_compute; reflexivity. Qed.
(** C92: the factors are unsigned: a signal of -5 dBm (stored in 1/1000) reads as
    18446744073709546 dBm, and -2000/1000 does not store as -2. *)
Theorem C92_negative_read_refuted : exists d m, neigh_meta 1 = Some m /\ reading d = Some (m, -5000, 1) /\
  read_int64 d 1 = Some (Some 18446744073709546).
Proof. exists (mkData (-5000) (Some (mkMeta 1 T_INT 1000)) (Some 1)), (mkMeta 1 T_INT 1000). repeat split; vm_compute; reflexivity. Qed.
Theorem C92_negative_store_refuted : exists m d', neigh_meta 5 = Some m /\
  data_set_int64 (fun _ => 0) (mkData 0 (Some m) None) 1 None (-2000) 1000 = Some (true, d') /\ d_val d' = 18446744073709549.
Proof. exists (mkMeta 5 T_INT 1). eexists. split; [reflexivity|]. split; [vm_compute; reflexivity|]. reflexivity. Qed.
(** C92: a number with a scale cannot be written to an object of boolean data. *)
Theorem C92_boolean_scale_refuted : exists m, net_meta 12 = Some m /\ forall prio d o n, data_set_int64 prio d o (Some m) n 1 = None.
Proof. eexists. split; [vm_compute; reflexivity|]. intros; reflexivity. Qed.
(** C92: a boolean reads as it was written ... *)
Theorem C92_boolean prio d o m b : d_org d = None -> m_type m = T_BOOL ->
  exists c d', data_set_bool prio d o (Some m) b = Some (c, d') /\ read_boolean d' = Some b.
Proof.
  intros O T. unfold data_set_bool, data_set. rewrite O. destruct (d_meta d); do 2 eexists; (split; [reflexivity|]); unfold read_boolean; cbn [d_meta d_val]; rewrite T; destruct b; reflexivity.
Qed.
(** ... but an object without value reads as a boolean value. *)
Theorem C92_boolean_without_value_refuted : exists d, reading d = None /\ read_boolean d = Some false.
Proof. exists (mkData 0 (Some (mkMeta 111 T_BOOL 0)) None). split; reflexivity. Qed.
Lemma str_reflect a b : reflect (a = b) (str_eqb a b).
Proof. destruct (str_eqb a b) eqn:E; constructor; [apply str_eqb_eq, E|intros ->; rewrite (proj2 (str_eqb_eq b b) eq_refl) in E; discriminate]. Qed.
(** C92: comparators mean what they say; other texts never hold. *)
Theorem C92_compare l r s : data_compare l r (data_get_comparator s) T_INT = true <->
  (s = zs "==" /\ l = r) \/ (s = zs "!=" /\ l <> r) \/ (s = zs "<" /\ l < r) \/ (s = zs "<=" /\ l <= r) \/
  (s = zs ">" /\ l > r) \/ (s = zs ">=" /\ l >= r).
Proof.
  unfold data_get_comparator, comparators, get_comparator, data_compare. change (T_INT =? T_INT) with true. cbv iota.
  change (0 + 1) with 1; change (1 + 1) with 2; change (2 + 1) with 3; change (3 + 1) with 4; change (4 + 1) with 5.
  assert (forall a b : bytes, a <> b -> str_eqb a b = false) as NE. { intros a b N. destruct (str_eqb a b) eqn:E; [apply str_eqb_eq in E; easy|reflexivity]. }
  assert (let c := if l >? r then 1 else if l <? r then -1 else 0 in (c = 0 /\ l = r) \/ (c < 0 /\ l < r) \/ (c > 0 /\ l > r)) as C
    by (cbv zeta; destruct (l >? r) eqn:?; destruct (l <? r) eqn:?; lia).
  cbv zeta in C.
  set (c := if l >? r then 1 else if l <? r then -1 else 0) in *. clearbody c.
  repeat match goal with |- context [str_eqb s ?x] => destruct (str_reflect s x) as [->|?] end;
  cbn [Z.eqb Pos.eqb]; clear NE.
  7: { split; [discriminate|]. intros [[? ?]|[[? ?]|[[? ?]|[[? ?]|[[? ?]|[? ?]]]]]]; contradiction. }
  all: split; [intros H
              |intros [[Q ?]|[[Q ?]|[[Q ?]|[[Q ?]|[[Q ?]|[Q ?]]]]]]; first [exfalso; vm_compute in Q; discriminate Q | clear Q; lia]].
  - left; split; [reflexivity|lia].
  - right; left; split; [reflexivity|lia].
  - do 2 right; left; split; [reflexivity|lia].
  - do 3 right; left; split; [reflexivity|lia].
  - do 4 right; left; split; [reflexivity|lia].
  - do 5 right; split; [reflexivity|lia].
Qed.
Example C92_ex_compare : data_compare (-3) 5 (data_get_comparator (zs "<=")) T_INT = true /\ data_get_comparator (zs "=<") = -1.
Proof. split; reflexivity. Qed.

(** ** C93: DLEP *)
Definition fits (length v : Z) : Prop :=
  (length = 8 /\ is_s64 v) \/ (length = 4 /\ -2147483648 <= v < 2147483648) \/ (length = 2 /\ -32768 <= v < 32768) \/ (length = 1 /\ -128 <= v < 128).
(** the number on the wire, as a function of the read value *)
Lemma wire_number length v : fits length v ->
  exists b, (if length =? 8 then Some (0, Some (be_enc 8 (u64 v)))
        else if length =? 4 then Some (0, Some (be_enc 4 (u32 (s32 v))))
        else if length =? 2 then Some (0, Some (be_enc 2 (u16 (s16 v))))
        else if length =? 1 then Some (0, Some (be_enc 1 (u8 (s8 v))))
        else Some (-1, None)) = Some (0, Some b) /\ zlen b = length /\
   (if zlen b =? 8 then Some (s64 (be_dec b)) else if zlen b =? 4 then Some (s32 (be_dec b))
    else if zlen b =? 2 then Some (s16 (be_dec b)) else if zlen b =? 1 then Some (s8 (be_dec b)) else None) = Some v.
Proof.
  intros [[-> H]|[[-> H]|[[-> H]|[-> H]]]]; cbn [Z.eqb Pos.eqb]; eexists; (split; [reflexivity|]).
  - assert (zlen (be_enc 8 (u64 v)) = 8) as L by (unfold zlen; rewrite be_enc_len; reflexivity). split; [exact L|].
    rewrite L. cbn [Z.eqb Pos.eqb]. rewrite be_round by apply u64_range. rewrite s64_u64 by exact H. reflexivity.
  - assert (zlen (be_enc 4 (u32 (s32 v))) = 4) as L by (unfold zlen; rewrite be_enc_len; reflexivity). split; [exact L|].
    rewrite L. cbn [Z.eqb Pos.eqb]. rewrite be_round by apply u32_range. rewrite s32_u32 by exact H. reflexivity.
  - assert (zlen (be_enc 2 (u16 (s16 v))) = 2) as L by (unfold zlen; rewrite be_enc_len; reflexivity). split; [exact L|].
    rewrite L. cbn [Z.eqb Pos.eqb]. rewrite be_round by apply u16_range. rewrite s16_u16 by exact H. reflexivity.
  - assert (zlen (be_enc 1 (u8 (s8 v))) = 1) as L by (unfold zlen; rewrite be_enc_len; reflexivity). split; [exact L|].
    rewrite L. cbn [Z.eqb Pos.eqb]. rewrite be_round by apply u8_range. rewrite s8_u8 by exact H. reflexivity.
Qed.
(** C93: a value that fits into the TLV arrives unchanged if the TLV uses the
    scale of the metadata (as all entries of the mapping tables do).  Missing:
    values that do not fit (false, see below). *)
Theorem C93_tlv_round_trip_partial prio d m v o s length d2 o2 : reading d = Some (m, v, o) -> m_type m = T_INT ->
  0 < m_scale m -> s = 0 \/ s = m_scale m -> is_s64 v -> fits length v -> d_org d2 = None ->
  exists b d2', map_to_tlv d m length s = Some (0, Some b) /\ zlen b = length /\
    map_from_tlv prio d2 m o2 (Some b) s = Some (0, d2') /\ reading d2' = Some (m, v, o2).
Proof.
  intros R T M S V F O. destruct (wire_number length v F) as (b & E & L & D).
  pose proof R as R0. unfold reading in R. destruct d as [dv [dm|] [dow|]]; cbn in R; try discriminate. injection R as -> -> ->.
  destruct (C92_read_partial _ m v o s R0 T M V ltac:(destruct S; lia)) as (RD & _ & _).
  exists b. unfold map_to_tlv; cbn [d_org d_meta]. rewrite Z.eqb_refl, T. cbn [negb]. change (T_INT =? T_INT) with true. cbv iota.
  rewrite (RD S). cbv iota. rewrite E. unfold map_from_tlv. rewrite D, T. change (T_INT =? T_INT) with true. cbv iota.
  assert (scale_in m v s = Some v) as SI.
  { unfold scale_in. destruct S as [-> | ->]; [reflexivity|]. destruct (Z.eqb_spec (m_scale m) 0); [reflexivity|].
    destruct (m_scale m >? m_scale m) eqn:G; [lia|]. rewrite Z.div_same by lia. rewrite s64_mul by (rewrite Z.mul_1_r; exact V). rewrite Z.mul_1_r. reflexivity. }
  unfold data_set_int64. rewrite SI. unfold data_set. rewrite O. destruct (d_meta d2); eexists; (split; [reflexivity|]); (split; [exact L|]); split; reflexivity.
Qed.
(** C93: booleans arrive; an object without value sends nothing *)
Theorem C93_tlv_boolean prio d m b o d2 o2 length s : d_org d = Some o -> d_meta d = Some m -> m_type m = T_BOOL -> read_boolean d = Some b ->
  In length [1; 2; 4; 8] -> d_org d2 = None ->
  exists t d2', map_to_tlv d m length s = Some (0, Some t) /\ map_from_tlv prio d2 m o2 (Some t) s = Some (0, d2') /\ read_boolean d2' = Some b.
Proof.
  intros O Mt T RB L O2. destruct (wire_number length (if b then 1 else 0)) as (t & E & LT & D).
  { unfold fits, is_s64. destruct L as [<-|[<-|[<-|[<-|[]]]]]; destruct b; lia. }
  exists t. unfold map_to_tlv. rewrite O, Mt, Z.eqb_refl, T. cbn [negb]. change (T_BOOL =? T_INT) with false. change (T_BOOL =? T_BOOL) with true. cbv iota.
  rewrite RB. replace (match Some b with Some true => 1 | _ => 0 end) with (if b then 1 else 0) by (destruct b; reflexivity). rewrite E.
  unfold map_from_tlv. rewrite D, T. change (T_BOOL =? T_INT) with false. change (T_BOOL =? T_BOOL) with true. cbv iota.
  destruct (C92_boolean prio d2 o2 m (negb ((if b then 1 else 0) =? 0)) O2 T) as (c & d2' & -> & R2). exists d2'.
  split; [reflexivity|]. split; [reflexivity|]. rewrite R2. destruct b; reflexivity.
Qed.
Theorem C93_tlv_no_value d m length s : reading d = None -> map_to_tlv d m length s = Some (0, None).
Proof. unfold reading, map_to_tlv. destruct (d_org d), (d_meta d); try discriminate; reflexivity. Qed.
Example C93_ex : let m := mkMeta 1 T_INT 1000 in
  map_to_tlv (mkData (-65000) (Some m) (Some 1)) m 4 1000 = Some (0, Some [255; 255; 2; 24]) /\
  map_from_tlv (fun _ => 0) (mkData 0 (Some m) None) m 7 (Some [255; 255; 2; 24]) 1000 = Some (0, mkData (-65000) (Some m) (Some 7)).
Proof. split; vm_compute; reflexivity. Qed.
(** C93: a value that does not fit is not refused, it arrives as another one:
    resources (one byte, proto.c:384-391) of 200 arrive as -56. *)
Theorem C93_tlv_truncates_refuted : exists m b d2', neigh_meta 23 = Some m /\
  map_to_tlv (mkData 200 (Some m) (Some 1)) m 1 1 = Some (0, Some b) /\
  map_from_tlv (fun _ => 0) (mkData 0 (Some m) None) m 7 (Some b) 1 = Some (0, d2') /\ reading d2' = Some (m, -56, 7).
Proof. exists (mkMeta 23 T_INT 1). do 2 eexists. split; [reflexivity|]. split; [vm_compute; reflexivity|]. split; vm_compute; reflexivity. Qed.
(** C93: any received value of another length than 1, 2, 4, 8 is refused and changes nothing; no received
    value is a fault for the objects of the metadata tables *)
Theorem C93_tlv_safe prio d m o tlv s i : neigh_meta i = Some m \/ net_meta i = Some m -> s = 0 \/ s = m_scale m ->
  exists r d', map_from_tlv prio d m o tlv s = Some (r, d') /\ (r = -1 -> d' = d).
Proof.
  intros M S. assert ((m_type m = T_INT /\ 0 < m_scale m) \/ m_type m = T_BOOL) as K.
  { destruct M as [M|M].
    - unfold neigh_meta in M. destruct (zget neigh_scalings i) as [sc|] eqn:G; [|discriminate]. injection M as <-. left. cbn. split; [reflexivity|].
      assert (Forall (fun x => 0 < x) neigh_scalings) as FA by (unfold neigh_scalings; repeat (constructor; [lia|]); constructor).
      unfold zget in G. destruct (i <? 0); [discriminate|]. apply nth_error_In in G. rewrite Forall_forall in FA. exact (FA _ G).
    - unfold net_meta in M. destruct (zget net_scalings i) as [sc|] eqn:G; [|discriminate]. injection M as <-. cbn.
      destruct (Z.ltb_spec i 11) as [L|L]; [left|right; reflexivity]. split; [reflexivity|].
      unfold zget in G. destruct (Z.ltb_spec i 0); [discriminate|].
      assert (Forall (fun x => 0 < x) (firstn 11 net_scalings)) as FA by (cbn; repeat (constructor; [lia|]); constructor).
      assert (nth_error (firstn 11 net_scalings) (Z.to_nat i) = Some sc) as G' by (rewrite nth_error_firstn; [exact G|lia] || (rewrite <- G; clear - H L; assert (exists k, (k < 11)%nat /\ Z.to_nat i = k) as (k & Hk & ->) by (exists (Z.to_nat i); lia); do 11 (destruct k as [|k]; [reflexivity|]); lia)).
      apply nth_error_In in G'. rewrite Forall_forall in FA. exact (FA _ G'). }
  unfold map_from_tlv. destruct tlv as [b|]; [|do 2 eexists; split; [reflexivity|intros; reflexivity]].
  destruct (if zlen b =? 8 then _ else _) as [v|]; [|do 2 eexists; split; [reflexivity|intros; reflexivity]].
  assert (forall v, exists c d', data_set prio d o (Some m) v = Some (c, d')) as W.
  { intros w. unfold data_set. destruct (match d_meta d with Some _ => _ | None => true end); eauto. }
  destruct K as [[T P]|T]; rewrite T; cbn [T_INT T_BOOL Z.eqb].
  - unfold data_set_int64. assert (exists w, scale_in m v s = Some w) as (w & ->).
    { unfold scale_in. destruct (Z.eqb_spec s 0); [eauto|]. destruct (s >? m_scale m); [|eauto]. destruct (Z.eqb_spec (m_scale m) 0); [lia|eauto]. }
    destruct (W w) as (c & d' & ->). exists 0, d'. split; [reflexivity|discriminate].
  - unfold data_set_bool. destruct (W (if negb (v =? 0) then 1 else 0)) as (c & d' & ->). exists 0, d'. split; [reflexivity|discriminate].
Qed.

(** ** C94: link ids *)

(** C94: a request by an origin with link ids for a MAC-48 or EUI-64 address gets a
    key with this address and a link id of 4 bytes, whose first byte is the
    number of the origin; all others get none. *)
Theorem C94_answers t rs n o m : nth_error rs n = Some (o, m) ->
  (lo_lid o = true /\ is_mac m = true -> exists k, nth_error (lids t rs) n = Some (Some k) /\ k_addr k = m /\ k_len k = 4 /\
     zlen (k_lid k) = 16 /\ zget (k_lid k) 0 = Some (lo_index o mod 256) /\ skipn 4 (k_lid k) = repeat 0 12) /\
  (lo_lid o = false \/ is_mac m = false -> nth_error (lids t rs) n = Some None).
Proof.
  intros N. split; [intros [L M]|exact (lids_none rs t n o m N)]. destruct (lids_nth' rs t n o m N L M) as (c & E & _).
  exists (key_of o m c). split; [exact E|]. unfold key_of; cbn [k_addr k_len k_lid]. split; [reflexivity|]. split; [reflexivity|].
  split; [reflexivity|]. split; [|reflexivity]. cbn. f_equal. change 255 with (Z.ones 8). rewrite Z.land_ones by lia. reflexivity.
Qed.
(** C94: two equal keys are at least 2^24 requests for the address apart.
    Missing: without this limit (false, see below). *)
Theorem C94_unique_partial t rs i j k k' : (i < j)%nat -> nth_error (lids t rs) i = Some (Some k) -> nth_error (lids t rs) j = Some (Some k') ->
  k = k' -> 16777216 <= requests (k_addr k) (firstn (j - i) (skipn i rs)).
Proof. exact (lids_distinct t rs i j k k'). Qed.
Definition ex_mac : netaddr := {| na_addr := [2; 0; 0; 0; 0; 9] ++ repeat 0 10; na_type := AF_MAC48; na_plen := 48 |}.
Definition ex_mac2 : netaddr := {| na_addr := [2; 0; 0; 0; 0; 8] ++ repeat 0 10; na_type := AF_MAC48; na_plen := 48 |}.
Example C94_ex : lids [] [(mkLo true 1, ex_mac); (mkLo true 2, ex_mac); (mkLo false 3, ex_mac); (mkLo true 258, ex_mac); (mkLo true 1, ex_mac2)] =
  [Some (mkKey ex_mac 4 ([1; 0; 0; 1] ++ repeat 0 12)); Some (mkKey ex_mac 4 ([2; 0; 0; 2] ++ repeat 0 12)); None;
   Some (mkKey ex_mac 4 ([2; 0; 0; 3] ++ repeat 0 12)); Some (mkKey ex_mac2 4 ([1; 0; 0; 1] ++ repeat 0 12))].
Proof. vm_compute. reflexivity. Qed.
(** C94: the 2^24-th next request of the same origin gets the same key again. *)
Theorem C94_unique_refuted : exists rs (i j : nat) k, (i < j)%nat /\ nth_error (lids [] rs) i = Some (Some k) /\ nth_error (lids [] rs) j = Some (Some k).
Proof.
  set (o := mkLo true 1). assert (exists n, Z.of_nat n = 16777216) as (n & Hn) by (exists (Z.to_nat 16777216); lia). exists (repeat (o, ex_mac) (S n)), 0%nat, n.
  assert (forall q p, (q < p)%nat -> nth_error (repeat (o, ex_mac) p) q = Some (o, ex_mac)) as NT.
  { clear. intros q p. revert q. induction p as [|p IH]; intros q L; [lia|]. destruct q as [|q]; [reflexivity|]. cbn. apply IH. lia. }
  destruct (lids_nth' (repeat (o, ex_mac) (S n)) [] 0 o ex_mac (NT 0%nat (S n) ltac:(lia)) eq_refl eq_refl) as (c & E & C).
  destruct (lids_nth' (repeat (o, ex_mac) (S n)) [] n o ex_mac (NT n (S n) ltac:(lia)) eq_refl eq_refl) as (c' & E' & C').
  exists (key_of o ex_mac c). split; [lia|]. split; [exact E|]. rewrite E'. do 2 f_equal. unfold key_of. f_equal. f_equal. f_equal.
  rewrite (be3_mod c), (be3_mod c'). f_equal. rewrite C, C'.
  assert (requests ex_mac (firstn n (repeat (o, ex_mac) (S n))) = 16777216) as ->.
  { assert (forall p q, (p <= q)%nat -> requests ex_mac (firstn p (repeat (o, ex_mac) q)) = Z.of_nat p) as RQ.
    { clear. induction p as [|p IH]; intros q L; [reflexivity|]. destruct q as [|q]; [lia|]. cbn [repeat firstn]. rewrite requests_cons. cbn [fst snd].
      rewrite na_eqb_refl. change (lo_lid o) with true. cbn [andb]. rewrite IH by lia. lia. }
    rewrite RQ by lia. exact Hn. }
  reflexivity.
Qed.

(** ** C95: text of keys *)

(** C95: the text of a key, written to any buffer of the right size, is read back as the same key. *)
Theorem C95_round_trip n4 n6 p4 p6 buf k : key_ok k -> zlen buf = L2KEY_BUF ->
  exists s, key_to_string n4 n6 buf k true = Some s /\ key_from_string p4 p6 s = Some (0, k).
Proof.
  intros (W & C & M & P & L & id & Hb & Hl & Hk) B. destruct (mac_text_facts n4 n6 p4 p6 (k_addr k) W C M P) as (t & E & F & A & Lt).
  assert (Forall (fun c => c <> 44) t) as NC by (eapply Forall_impl; [|exact A]; intros c H; apply akey_no in H; tauto).
  assert (no_nul t) as NN by (eapply Forall_impl; [|exact A]; intros c H; apply akey_no in H; tauto).
  unfold key_to_string. rewrite M, E. cbn [negb]. destruct (Z.eqb_spec (k_len k) 0) as [Z0|Z0].
  - exists t. split; [reflexivity|]. unfold key_from_string. rewrite split_comma_none by exact NC. unfold key_addr. rewrite F, M.
    f_equal. f_equal. destruct k as [ka kl ki]; cbn in *. rewrite Hk, Z0. f_equal. rewrite Z0 in Hl. unfold zlen in Hl. destruct id; [reflexivity|cbn in Hl; lia].
  - assert (zlen (k_lid k) = 16) as L16. { rewrite Hk, zlen_app, Hl. unfold zlen. rewrite repeat_length. lia. }
    assert ((k_len k >? zlen (k_lid k)) = false) as -> by lia.
    assert (zlen (t ++ [44]) = zlen t + 1) as LP by (rewrite zlen_app; reflexivity).
    assert ((L2KEY_BUF <? zlen (t ++ [44])) = false) as -> by (unfold L2KEY_BUF, NETADDR_STR_LEN; lia).
    assert (firstn (Z.to_nat (k_len k)) (k_lid k) = id) as ->.
    { rewrite Hk, <- Hl. unfold zlen. rewrite Nat2Z.id, firstn_app, Nat.sub_diag, firstn_all. cbn. apply app_nil_r. }
    pose proof (zlen_nonneg t).
    destruct (hex_round id (skipn (length (t ++ [44])) buf) (L2KEY_BUF - zlen (t ++ [44])) (repeat 0 16) 16) as (h & r & E1 & E2).
    + exact Hb.
    + unfold zlen in *. rewrite skipn_length. unfold L2KEY_BUF, NETADDR_STR_LEN in *. lia.
    + reflexivity.
    + rewrite Hl, LP. unfold L2KEY_BUF, NETADDR_STR_LEN. lia.
    + lia.
    + rewrite E1. pose proof (zlen_nonneg h). assert ((zlen h <? 0) = false) as -> by lia.
      assert (firstn (Z.to_nat (zlen h)) (h ++ 0 :: r) = h) as ->.
      { unfold zlen. rewrite Nat2Z.id, firstn_app, Nat.sub_diag, firstn_all. cbn. apply app_nil_r. }
      eexists. split; [reflexivity|]. unfold key_from_string. rewrite <- app_assoc. cbn [app]. rewrite split_comma_app by exact NC.
      assert ((zlen t >? NETADDR_STR_LEN) = false) as -> by (unfold NETADDR_STR_LEN; lia).
      destruct (addr_copy t (44 :: h) NN) as (nbuf & -> & -> & ->); [unfold NETADDR_STR_LEN; lia|].
      rewrite E2. assert ((zlen id <? 0) = false) as -> by lia. unfold key_addr. rewrite F, M. f_equal. f_equal.
      destruct k as [ka kl ki]; cbn [k_addr k_len k_lid] in *. rewrite Hk, Hl. f_equal. f_equal. rewrite repeat0_skip. f_equal. unfold zlen in Hl. lia.
Qed.
Definition ex_key : nkey := mkKey ex_mac 4 ([1; 171; 0; 255] ++ repeat 0 12).
Example C95_ex : key_ok ex_key /\
  key_to_string (fun _ => []) (fun _ => []) (repeat 7 (Z.to_nat L2KEY_BUF)) ex_key true = Some (zs "02:00:00:00:00:09,01ab00ff") /\
  key_from_string (fun _ => None) (fun _ => None) (zs "02:00:00:00:00:09,01AB00ff") = Some (0, ex_key).
Proof.
  split; [|split; vm_compute; reflexivity]. split; [|split; [|split; [reflexivity|]]].
  - split; [reflexivity|]. split; [repeat (constructor; [unfold is_u8; lia|]); constructor|]. unfold is_u8; cbn; unfold AF_MAC48, AF_MAX; lia.
  - exists 6. split; [reflexivity|]. intros i H. assert (i = 6 \/ i = 7 \/ i = 8 \/ i = 9 \/ i = 10 \/ i = 11 \/ i = 12 \/ i = 13 \/ i = 14 \/ i = 15) as Q by lia.
    repeat destruct Q as [->|Q]; try reflexivity. rewrite Q. reflexivity.
  - split; [vm_compute; discriminate|]. split; [cbn; lia|]. exists [1; 171; 0; 255]. split; [repeat (constructor; [unfold is_u8; lia|]); constructor|]. split; reflexivity.
Qed.
(** C95: reading a text without zero characters is not a fault as long as there
    are not exactly 62 characters before the first comma; an accepted key is a
    MAC-48 or EUI-64 address with at most 16 bytes of link id.  Missing: the
    excluded length (false, see below). *)
Theorem C95_read_partial p4 p6 s : all_bytes s -> no_nul s -> (forall a r, s = a ++ 44 :: r -> Forall (fun c => c <> 44) a -> zlen a <> NETADDR_STR_LEN) ->
  exists c k, key_from_string p4 p6 s = Some (c, k) /\ -4 <= c <= 0 /\
      (c = 0 -> is_mac (k_addr k) = true /\ 0 <= k_len k <= 16 /\ zlen (k_lid k) = 16).
Proof.
  intros A N H. unfold key_from_string.
  assert (forall a l lid, 0 <= l <= 16 -> zlen lid = 16 -> exists c k, Some (key_addr p4 p6 a l lid) = Some (c, k) /\ -4 <= c <= 0 /\
      (c = 0 -> is_mac (k_addr k) = true /\ 0 <= k_len k <= 16 /\ zlen (k_lid k) = 16)) as KA.
  { intros a l lid L1 L2. unfold key_addr. destruct (from_string p4 p6 a) as [ad|]; [destruct (is_mac ad) eqn:M|].
    - exists 0, (mkKey ad l lid). split; [reflexivity|]. split; [lia|]. auto.
    - eexists (-4), _. split; [reflexivity|]. split; [lia|discriminate].
    - eexists (-3), _. split; [reflexivity|]. split; [lia|discriminate]. }
  destruct (split_comma s) as [[a l]|] eqn:E.
  - apply split_comma_some in E. destruct E as [E F]. specialize (H a l E F). destruct (zlen a >? NETADDR_STR_LEN) eqn:G.
    + eexists (-1), _. split; [reflexivity|]. split; [lia|discriminate].
    + assert (no_nul a) as Na by (subst s; apply Forall_app in N; tauto).
      assert (all_bytes l /\ no_nul l) as [Al Nl]. { subst s. apply Forall_app in N, A. destruct N as [_ N], A as [_ A]. split; [exact (Forall_inv_tail A)|exact (Forall_inv_tail N)]. }
      rewrite E. destruct (addr_copy a (44 :: l) Na) as (nbuf & -> & -> & ->); [lia|].
      destruct (C29_only_hex_accepted (repeat 0 16) l Al Nl) as (r & out' & HX & Lo & R1 & R2). change (zlen (repeat 0 16)) with 16 in *.
      rewrite HX. destruct (Z.ltb_spec r 0).
      * eexists (-2), _. split; [reflexivity|]. split; [lia|discriminate].
      * apply KA; [|exact Lo]. split; [lia|]. destruct R2 as (bs & T & Lb); [lia|]. destruct (R1 bs T Lb) as [-> _]. exact Lb.
  - apply KA; [lia|reflexivity].
Qed.
(** C95: 62 characters before the comma: the terminating zero is written behind the buffer. *)
Theorem C95_overflow_refuted : exists s, no_nul s /\ forall p4 p6, key_from_string p4 p6 s = None.
Proof.
  exists (repeat 49 62 ++ zs ",00"). split.
  - apply Forall_app. split; [apply Forall_repeat; lia|]. repeat (constructor; [vm_compute; congruence|]). constructor.
  - intros. vm_compute. reflexivity.
Qed.

Print Assumptions C91_owner.
Print Assumptions C91_owner_later.
Print Assumptions C91_decided_unique.
Print Assumptions C91_changed_partial.
Print Assumptions C91_changed_refuted.
Print Assumptions C91_default_metadata_refuted.
Print Assumptions C91_reset.
Print Assumptions C92_store_partial.
Print Assumptions C92_read_partial.
Print Assumptions C92_round_trip.
Print Assumptions C92_negative_read_refuted.
Print Assumptions C92_negative_store_refuted.
Print Assumptions C92_boolean_scale_refuted.
Print Assumptions C92_boolean.
Print Assumptions C92_boolean_without_value_refuted.
Print Assumptions C92_compare.
Print Assumptions C93_tlv_round_trip_partial.
Print Assumptions C93_tlv_boolean.
Print Assumptions C93_tlv_no_value.
Print Assumptions C93_tlv_truncates_refuted.
Print Assumptions C93_tlv_safe.
Print Assumptions C94_answers.
Print Assumptions C94_unique_partial.
Print Assumptions C94_unique_refuted.
Print Assumptions C95_round_trip.
Print Assumptions C95_read_partial.
Print Assumptions C95_overflow_refuted.
