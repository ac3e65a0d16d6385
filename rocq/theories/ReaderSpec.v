(** Specification vocabulary for the RFC 5444 reader. *)
From Verif Require Import Base BitsModel NetaddrModel ReaderModel ReadDispModel.

(** The three undefined operations that a packet can really trigger (DESIGN.md,
    findings): a multivalue TLV whose number of values wraps to zero, a single
    prefix length directly behind the end of the packet, and an address block
    whose head and tail do not leave room for the middle part. *)
Definition known_fault (pkt : bytes) (f : rfault) : Prop :=
  match f with
  | F_div0 t => flag (t_flags t) 0x04 = true /\ (t_idx2 t - t_idx1 t + 1) mod 256 = 0 /\ 0 < t_length t
  | F_plen off => off = zlen pkt
  | F_mid ms ml => 16 < ms + ml
  | _ => False
  end.

(** [wp P Q x]: the computation ends normally with a result satisfying [Q] or
    with a fault satisfying [P]. *)
Definition wp {A} (P : rfault -> Prop) (Q : A -> Prop) (x : outcome A) : Prop :=
  match x with Ok a => Q a | Bad f => P f end.

(** number of values of a TLV that is present for the indices idx1..idx2 *)
Definition t_count (t : tlv) : Z := if t_multi t then t_idx2 t - t_idx1 t + 1 else 1.

(** A parsed TLV: its value, if any, lies in [lo, hi). *)
Record tlv_in (lo hi : Z) (t : tlv) : Prop := {
  ti_type : is_u8 (t_type t);
  ti_ext : is_u8 (t_ext t);
  ti_idx1 : is_u8 (t_idx1 t);
  ti_idx2 : is_u8 (t_idx2 t);
  ti_len : 0 <= t_length t < 65536;
  ti_val : 0 < t_length t -> exists v, t_value t = Some v /\ lo <= v /\ v + t_length t <= hi /\
            (t_idx1 t <= t_idx2 t -> v + t_count t * t_length t <= hi) /\
            (t_multi t = false -> t_single t = Some v)
}.

(** A TLV as delivered for an index: the visible value lies in [lo, hi). *)
Definition tlv_delivered_in (lo hi : Z) (t : tlv) : Prop :=
  0 < t_length t -> exists v, t_single t = Some v /\ lo <= v /\ v + t_length t <= hi.

Definition event_in (lo hi : Z) (e : event) : Prop :=
  match e with
  | EvTlv _ _ t => tlv_delivered_in lo hi t
  | EvBlock _ _ _ views => Forall (fun v => Forall (tlv_delivered_in lo hi) (fst v)) views
  | EvForward _ start len => lo <= start /\ 0 <= len /\ start + len <= hi
  | _ => True
  end.

(** An address block whose parts lie in [lo, hi). *)
Record ablock_in (lo hi : Z) (a : ablock) : Prop := {
  ai_num : 1 <= ab_num a <= 255;
  ai_ms : 0 <= ab_mid_start a < 16;
  ai_ml : 0 <= ab_mid_len a <= 255;
  ai_src : lo <= ab_mid_src a /\ ab_mid_src a + ab_mid_len a * ab_num a <= hi;
  ai_pre : forall p, ab_prefixes a = Some p -> lo <= p /\ p + ab_num a <= hi;
  ai_addr : zlen (ab_addr a) = 16 /\ all_bytes (ab_addr a);
  ai_tlvs : Forall (tlv_in lo hi) (ab_tlvs a)
}.

(** Messages cut out of the packet one after the other: each message starts
    where the previous one ended, and is as long as its own size field (bytes
    2 and 3, most significant first) says, at least 6 bytes. *)
Inductive partitioned (pkt : bytes) : Z -> Z -> list (Z * Z) -> Prop :=
| part_nil : forall p, partitioned pkt p p []
| part_cons : forall p e l size h lo,
    zget pkt (p + 2) = Some h -> zget pkt (p + 3) = Some lo -> size = 256 * h + lo -> 6 <= size ->
    partitioned pkt (p + size) e l -> partitioned pkt p e ((p, size) :: l).

(** ** Message header as laid out in RFC 5444, section 5.2 *)
Definition bit_set (b n : Z) : bool := Z.testbit b n.
(** offset of the hop limit behind the start of the message *)
Definition hop_limit_offset (flags : Z) : Z := 4 + if bit_set flags 7 then flags mod 16 + 1 else 0.
(** the hop limit field of the message at [start], if there is one *)
Definition msg_hop_limit (pkt : bytes) (start : Z) : option Z :=
  match zget pkt (start + 1) with
  | Some flags => if bit_set flags 6 then zget pkt (start + hop_limit_offset flags) else None
  | None => None
  end.

(** ** TLV constraints of a consumer *)
Definition wants (e : centry) (t : tlv) : bool :=
  (t_type t =? ce_type e) && (negb (ce_match_ext e) || (t_ext t =? ce_ext e)).
Definition covers (idx : Z) (t : tlv) : bool :=
  (t_idx1 t <=? idx) && (idx <=? t_idx2 t) && negb (zmem idx (t_drop t)).
Definition bad_length (e : centry) (t : tlv) : bool :=
  ce_match_len e && ((t_length t <? ce_min e) || (ce_max e <? t_length t)).

(** The constraint of one entry, as documented: a mandatory TLV is missing for
    this index, or a TLV for this index has an illegal length. *)
Definition violated (idx : Z) (tlvs : list tlv) (e : centry) : bool :=
  (ce_mandatory e && negb (existsb (fun t => wants e t && covers idx t) tlvs))
  || existsb (fun t => wants e t && covers idx t && bad_length e t) tlvs.

(** What the code computes in addition: a mandatory TLV is also reported
    missing if some TLV of the type concerns other indices only. *)
Definition violated_code (idx : Z) (tlvs : list tlv) (e : centry) : bool :=
  (ce_mandatory e && (negb (existsb (wants e) tlvs) || existsb (fun t => wants e t && negb (covers idx t)) tlvs))
  || existsb (fun t => wants e t && covers idx t && bad_length e t) tlvs.

(** The TLV as it is shown for one index: single_value points to the value of
    this index. *)
Definition shown (idx : Z) (t : tlv) : tlv :=
  if t_multi t then t_set_single t (option_map (fun v => v + (idx - t_idx1 t) * t_length t) (t_value t)) else t.
(** TLVs an entry gets for one index *)
Definition chain (idx : Z) (tlvs : list tlv) (e : centry) : list tlv :=
  map (shown idx) (filter (fun t => wants e t && covers idx t) tlvs).

(** Sorted consumer entries of which no two want the same TLV. *)
Fixpoint separate (l : list centry) : Prop :=
  match l with
  | [] => True
  | e :: l' => Forall (fun e' => ce_type e < ce_type e' \/
                 (ce_type e = ce_type e' /\ ce_match_ext e = true /\ ce_match_ext e' = true /\ ce_ext e < ce_ext e')) l'
               /\ separate l'
  end.
Fixpoint tlvs_sorted (l : list tlv) : Prop :=
  match l with
  | [] => True
  | t :: l' => Forall (fun t' => t_type t < t_type t' \/ (t_type t = t_type t' /\ t_ext t <= t_ext t')) l' /\ tlvs_sorted l'
  end.

(** ** Start and end callbacks of message consumers *)
Definition is_message (x : ctx) : bool := match x_kind x with KMessage => true | _ => false end.
(** [(true, id)]: start callback, [(false, id)]: end callback *)
Definition bracket (e : event) : list (bool * Z) :=
  match e with
  | EvStart c x => if is_message x then [(true, c)] else []
  | EvEnd c x _ => if is_message x then [(false, c)] else []
  | _ => []
  end.
(** start/end callbacks of message consumers in a history (newest first), the
    oldest first *)
Definition brackets (tr : list event) : list (bool * Z) := flat_map bracket (rev tr).
(** one order group: all start callbacks, then all end callbacks backwards *)
Definition group_brackets (g : list consumer) : list (bool * Z) :=
  map (fun c => (true, c_id c)) (filter c_start g) ++ map (fun c => (false, c_id c)) (rev (filter c_end g)).
Definition same_order (g : list consumer) : Prop := forall c c', In c g -> In c' g -> c_order c = c_order c'.
Fixpoint orders_sorted (l : list consumer) : Prop :=
  match l with [] => True | c :: l' => Forall (fun c' => c_order c <= c_order c') l' /\ orders_sorted l' end.
(** the orders of the groups increase strictly *)
Fixpoint groups_ordered (gs : list (list consumer)) : Prop :=
  match gs with
  | [] => True
  | g :: gs' => Forall (fun c => Forall (Forall (fun c' => c_order c < c_order c')) gs') g /\ groups_ordered gs'
  end.

Inductive balanced : list (bool * Z) -> Prop :=
| bal_nil : balanced []
| bal_one : forall c a b, balanced a -> balanced b -> balanced ((true, c) :: a ++ (false, c) :: b).

(** Answers that make sense for the callback. *)
Definition e_kind (e : event) : kind :=
  match e with EvStart _ x | EvTlv _ x _ | EvBlock _ x _ _ | EvEnd _ x _ | EvForward x _ _ => x_kind x end.
Definition polite (e : event) (a : Z) : Prop :=
  (a = OKAY \/ 3 <= a \/ (a = DROP_TLV /\ match e with EvTlv _ _ _ | EvBlock _ _ _ _ => True | _ => False end)
   \/ (a = DROP_ADDRESS /\ e_kind e = KAddress)).

Section Protocol.
Context (cb : list event -> answer) (old : list event).
(** has one of the callbacks of [new] dropped the message? [old] is what
    happened before, the newest event comes first *)
Fixpoint dropped (new : list event) : bool :=
  match new with
  | [] => false
  | _ :: r => dropped r || (3 <=? a_res (cb (new ++ old)))
  end.
(** End callbacks of message consumers tell whether the message was dropped
    up to now; nothing but end callbacks happens once it is. *)
Fixpoint protocol (new : list event) : Prop :=
  match new with
  | [] => True
  | e :: r => protocol r /\
      match e with
      | EvEnd _ x f => if is_message x then f = dropped r else dropped r = true -> f = true
      | EvForward _ _ _ => False
      | _ => dropped r = false
      end
  end.
(** the answers of [new]: the strongest reaction *)
Fixpoint max_answer (new : list event) : Z :=
  match new with
  | [] => OKAY
  | _ :: r => Z.max (max_answer r) (a_res (cb (new ++ old)))
  end.
(** some callback of [new] has asked not to forward the message *)
Fixpoint forbidden (new : list event) : bool :=
  match new with
  | [] => false
  | _ :: r => forbidden r || a_dnf (cb (new ++ old))
  end.
End Protocol.
