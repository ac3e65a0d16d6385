(** What a generated message has to look like, stated with the wire format of
    WireSpec.v and without the generator's helpers. *)
From Coq Require Import Permutation Sorted.
From Verif Require Import Base BitsModel WireSpec GenModel.

(** ** Inputs *)
Definition tlv_ok (t : gtlv) : Prop :=
  is_u8 (gt_type t) /\ is_u8 (gt_ext t) /\ all_bytes (gt_value t) /\ zlen (gt_value t) < 65536.
Definition addr_ok (al : Z) (a : gaddr) : Prop :=
  zlen (ga_bytes a) = al /\ all_bytes (ga_bytes a) /\ 0 <= ga_plen a <= 8 * al /\ Forall tlv_ok (ga_tlvs a).
Definition cfg_ok (c : gcfg) : Prop :=
  1 <= gc_al c <= 16 /\ Forall (addr_ok (gc_al c)) (gc_addrs c) /\ gc_room c < 65536.
(** the addresses differ in their bytes, not just in the prefix length *)
Definition distinct (c : gcfg) : Prop := NoDup (map ga_bytes (gc_addrs c)).
(** one tlvtype object for each TLV type, no type twice at an address *)
Definition kind (t : gtlv) : Z * Z := (gt_type t, gt_ext t).
Definition plain_tlvs (c : gcfg) : Prop :=
  (forall a t a' t', In a (gc_addrs c) -> In t (ga_tlvs a) -> In a' (gc_addrs c) -> In t' (ga_tlvs a') ->
     (gt_id t = gt_id t' <-> kind t = kind t')) /\
  (forall a, In a (gc_addrs c) -> NoDup (map kind (ga_tlvs a))).
(** rfc5444_writer_add_address puts the mandatory addresses first, unless an
    address is added again *)
Definition mand_first (c : gcfg) : Prop :=
  forall p q a b, zget (gc_addrs c) p = Some a -> zget (gc_addrs c) q = Some b ->
    ga_mand a = false -> ga_mand b = true -> q < p.
Definition no_mand (c : gcfg) : Prop := Forall (fun a => ga_mand a = false) (gc_addrs c).

(** ** Completeness *)
Definition positions (out : list frag) : list Z := concat (map fr_members out).
(** every other address is in exactly one message *)
Definition others_once (c : gcfg) (out : list frag) : Prop :=
  forall p a, zget (gc_addrs c) p = Some a -> ga_mand a = false -> count_occ Z.eq_dec (positions out) p = 1%nat.
(** every mandatory one in all of them *)
Definition mandatory_everywhere (c : gcfg) (out : list frag) : Prop :=
  forall p a f, zget (gc_addrs c) p = Some a -> ga_mand a = true -> In f out -> In p (fr_members f).
(** nothing else, and in the order of the list *)
Definition ordered (c : gcfg) (out : list frag) : Prop :=
  forall f, In f out -> StronglySorted Z.lt (fr_members f) /\ forall p, In p (fr_members f) -> exists a, zget (gc_addrs c) p = Some a.

(** size of an address in a block of its own *)
Definition tlv_room (t : gtlv) : Z :=
  4 + (if gt_ext t =? 0 then 0 else 1)
  + (if zlen (gt_value t) =? 0 then 0 else if zlen (gt_value t) <? 256 then 1 else 2) + zlen (gt_value t).
Definition addr_room (al : Z) (a : gaddr) : Z := 6 + al + fold_right Z.add 0 (map tlv_room (ga_tlvs a)).
(** the mandatory addresses and any other one fit into a message *)
Definition mand_room (c : gcfg) : Z := fold_right Z.add 0 (map (addr_room (gc_al c)) (filter ga_mand (gc_addrs c))).
Definition progress_possible (c : gcfg) : Prop :=
  zlen (filter ga_mand (gc_addrs c)) <= 254 /\
  forall a, In a (gc_addrs c) -> ga_mand a = false -> mand_room c + addr_room (gc_al c) a <= gc_max c.

(** ** Address blocks *)
Definition view (t : gtlv) : Z * Z * bytes := (gt_type t, gt_ext t, gt_value t).
Definition concernsb (n i : Z) (w : wtlv) : bool := (first_index w <=? i) && (i <=? last_index n w).
(** the TLVs a block has for its address [i] *)
Definition tlvs_at (ws : list wtlv) (n i : Z) : list (Z * Z * bytes) :=
  map (fun w => (w_type w, match w_ext w with Some x => x | None => 0 end, value_at n w i)) (filter (concernsb n i) ws).
(** the block has these addresses *)
Definition has_addresses (al : Z) (b : wblock) (xs : list gaddr) : Prop :=
  wb_num b = zlen xs /\
  forall i a, zget xs i = Some a -> address b i = Some (ga_bytes a) /\ prefix_length al b i = Some (ga_plen a).
(** ... and these TLVs *)
Definition has_tlvs (b : wblock) (xs : list gaddr) : Prop :=
  forall i a, zget xs i = Some a -> Permutation (tlvs_at (wb_tlvs b) (wb_num b) i) (map view (ga_tlvs a)).

(** the addresses of a message *)
Definition addresses_of (c : gcfg) (f : frag) : list (option gaddr) := map (zget (gc_addrs c)) (fr_members f).
(** its blocks, as a receiver understands them, carry these addresses and
    their TLVs *)
Definition says (c : gcfg) (f : frag) : Prop :=
  exists bs : list (wblock * list gaddr),
    fr_bytes f = flat_map enc_block (map fst bs) /\
    addresses_of c f = map Some (concat (map snd bs)) /\
    Forall (fun x => wf_block (gc_al c) (fst x) /\ has_addresses (gc_al c) (fst x) (snd x) /\ has_tlvs (fst x) (snd x)) bs.
