(** Values of the layer-2 database: src/base/oonf_layer2.c and
    include/oonf/base/oonf_layer2.h (data objects, number scaling, comparison,
    link ids, text of neighbor keys), and the mapping of these values to DLEP
    TLVs (src/generic/dlep/dlep_writer.c, dlep_reader.c).

    A fault (failed assertion, division by zero, access outside of an array) is
    [None].  Data of type "network" (an address as value) is left out; the value
    union is its 64-bit integer member (a boolean is stored as 0 or 1 into a
    zeroed union, h:963-965). *)
From Verif Require Import Base NetaddrModel StrBase StringModel.

(** * Data objects *)

(** oonf_layer2.h:229-244: type and scaling; [m_id] stands for the address of the
    metadata object, which is what the code compares. *)
Record meta := mkMeta { m_id : Z; m_type : Z; m_scale : Z }.
Definition T_INT : Z := 0.
Definition T_BOOL : Z := 1.

(** oonf_layer2.h:246-258 [struct oonf_layer2_data]; an origin is a number, its priority
    is given by the table [prio] of the registered origins *)
Record data := mkData { d_val : Z; d_meta : option meta; d_org : option Z }.

(** oonf_layer2.h:831-834 [oonf_layer2_data_has_value] *)
Definition has_value (d : data) : bool :=
  match d_org d, d_meta d with Some _, Some _ => true | _, _ => false end.

Definition meta_is (a : option meta) (b : meta) : bool :=
  match a with Some m => m_id m =? m_id b | None => false end.

(** oonf_layer2.c:341-358 [oonf_layer2_data_set]; [meta] = None is NULL *)
Definition data_set (prio : Z -> Z) (d : data) (o : Z) (m : option meta) (v : Z) : option (bool * data) :=
  match (match m with None => d_meta d | Some _ => m end) with
  | None => None
  | Some mt =>
    let take := match d_meta d, d_org d with
                | Some _, Some own => (own =? o) || (prio own <? prio o)
                | _, _ => true
                end in
    if take then Some (negb (meta_is (d_meta d) mt) || negb (d_val d =? v), mkData v (Some mt) (Some o))
    else Some (false, d)
  end.

(** oonf_layer2.c:368-388 [oonf_layer2_data_set_int64]: the factor is a uint64_t,
    so the arithmetic is unsigned (usual conversions of C) *)
Definition scale_in (m : meta) (n scaling : Z) : option Z :=
  if scaling =? 0 then Some n
  else if scaling >? m_scale m then
    if m_scale m =? 0 then None else Some (s64 (u64 n / (scaling / m_scale m)))
  else Some (s64 (u64 n * (m_scale m / scaling))).
Definition data_set_int64 (prio : Z -> Z) (d : data) (o : Z) (m : option meta) (n scaling : Z) : option (bool * data) :=
  match (match m with None => d_meta d | Some _ => m end) with
  | None => None
  | Some mt => match scale_in mt n scaling with
               | None => None
               | Some v => data_set prio d o (Some mt) v
               end
  end.
(** oonf_layer2.h:960-966 [oonf_layer2_data_set_bool] *)
Definition data_set_bool (prio : Z -> Z) (d : data) (o : Z) (m : option meta) (b : bool) : option (bool * data) :=
  data_set prio d o m (if b then 1 else 0).

(** oonf_layer2.h:851-867 [oonf_layer2_data_read_int64]: [Some None] is the
    return value -1 *)
Definition scale_out (m : meta) (v scale : Z) : option Z :=
  let scale := if scale =? 0 then m_scale m else scale in
  if scale >? m_scale m then
    if m_scale m =? 0 then None else Some (s64 (u64 v * (scale / m_scale m)))
  else if scale =? 0 then None
  else if m_scale m / scale =? 0 then None else Some (s64 (u64 v / (m_scale m / scale))).
Definition read_int64 (d : data) (scale : Z) : option (option Z) :=
  match d_org d, d_meta d with
  | Some _, Some m =>
    if m_type m =? T_INT then
      match scale_out m (d_val d) scale with None => None | Some r => Some (Some r) end
    else Some None
  | _, _ => Some None
  end.
(** oonf_layer2.h:888-895 [oonf_layer2_data_read_boolean]: only the metadata is
    looked at *)
Definition read_boolean (d : data) : option bool :=
  match d_meta d with
  | Some m => if m_type m =? T_BOOL then Some (negb (u8 (d_val d) =? 0)) else None
  | None => None
  end.
(** oonf_layer2.h:984-988 [oonf_layer2_data_reset] *)
Definition data_reset (d : data) : data := mkData (d_val d) None None.

(** oonf_layer2.c:399-442 [oonf_layer2_data_compare], comparators in the order
    of oonf_layer2.h:264-274 (equal, not equal, lesser, lesser or equal, greater,
    greater or equal) *)
Definition data_compare (l r cmp ty : Z) : bool :=
  let result := if ty =? T_INT then Some (if l >? r then 1 else if l <? r then -1 else 0)
                else if ty =? T_BOOL then Some (u8 l - u8 r)
                else None in
  match result with
  | None => false
  | Some c =>
    if cmp =? 0 then c =? 0
    else if cmp =? 1 then negb (c =? 0)
    else if cmp =? 2 then c <? 0
    else if cmp =? 3 then c <=? 0
    else if cmp =? 4 then c >? 0
    else if cmp =? 5 then c >=? 0
    else false
  end.
(** oonf_layer2.c:145-152 and 449-460 [oonf_layer2_data_get_comparator]; -1 is
    the illegal comparator *)
Definition comparators : list bytes := [zs "=="; zs "!="; zs "<"; zs "<="; zs ">"; zs ">="].
Fixpoint get_comparator (l : list bytes) (i : Z) (s : bytes) : Z :=
  match l with
  | [] => -1
  | c :: l' => if str_eqb s c then i else get_comparator l' (i + 1) s
  end.
Definition data_get_comparator (s : bytes) : Z := get_comparator comparators 0 s.

(** * The metadata tables: oonf_layer2.c:86-136 *)
Definition neigh_scalings : list Z :=
  [1000; 1000; 1000; 1000; 1; 1; 1; 1; 1; 1; 1; 1; 1; 1; 1; 1; 1; 1; 1; 1; 1; 1000; 1000000; 1; 1; 1].
Definition net_scalings : list Z :=
  [1; 1; 1; 1; 1000; 1000000000; 1000000000; 1000000000; 1000000000; 1; 1; 0; 0; 0; 0; 0].
Definition neigh_meta (i : Z) : option meta :=
  match zget neigh_scalings i with Some s => Some (mkMeta i T_INT s) | None => None end.
Definition net_meta (i : Z) : option meta :=
  match zget net_scalings i with
  | Some s => Some (mkMeta (100 + i) (if i <? 11 then T_INT else T_BOOL) s)
  | None => None end.

(** * DLEP TLVs of layer-2 values *)
Fixpoint be_enc (n : nat) (v : Z) : bytes :=
  match n with O => [] | S n' => be_enc n' (v / 256) ++ [v mod 256] end.
Definition be_dec (l : bytes) : Z := fold_left (fun a x => a * 256 + x) l 0.
Definition s16 (z : Z) : Z := let m := u16 z in if m <? 32768 then m else m - 65536.
Definition s8 (z : Z) : Z := let m := u8 z in if m <? 128 then m else m - 256.

(** dlep_writer.c:386-439 [dlep_writer_map_identity]: return code and, if a TLV
    is added, its value *)
Definition map_to_tlv (d : data) (mt : meta) (length scaling : Z) : option (Z * option bytes) :=
  match d_org d, d_meta d with
  | Some _, Some m =>
    if negb (m_type mt =? m_type m) then Some (-1, None)
    else
      match (if m_type m =? T_INT then
               match read_int64 d scaling with
               | None => None | Some None => Some (Some 0) | Some (Some v) => Some (Some v) end
             else if m_type m =? T_BOOL then
               Some (Some (match read_boolean d with Some true => 1 | _ => 0 end))
             else Some None) with
      | None => None
      | Some None => Some (-1, None)
      | Some (Some v) =>
        if length =? 8 then Some (0, Some (be_enc 8 (u64 v)))
        else if length =? 4 then Some (0, Some (be_enc 4 (u32 (s32 v))))
        else if length =? 2 then Some (0, Some (be_enc 2 (u16 (s16 v))))
        else if length =? 1 then Some (0, Some (be_enc 1 (u8 (s8 v))))
        else Some (-1, None)
      end
  | _, _ => Some (0, None)
  end.

(** dlep_reader.c:493-541 [dlep_reader_map_identity] for a TLV with value [tlv]
    ([None]: the signal has no such TLV) *)
Definition map_from_tlv (prio : Z -> Z) (d : data) (mt : meta) (o : Z) (tlv : option bytes) (scaling : Z) : option (Z * data) :=
  match tlv with
  | None => Some (0, d)
  | Some b =>
    match (if zlen b =? 8 then Some (s64 (be_dec b))
           else if zlen b =? 4 then Some (s32 (be_dec b))
           else if zlen b =? 2 then Some (s16 (be_dec b))
           else if zlen b =? 1 then Some (s8 (be_dec b))
           else None) with
    | None => Some (-1, d)
    | Some v =>
      if m_type mt =? T_INT then
        match data_set_int64 prio d o (Some mt) v scaling with None => None | Some (_, d') => Some (0, d') end
      else if m_type mt =? T_BOOL then
        match data_set_bool prio d o (Some mt) (negb (v =? 0)) with None => None | Some (_, d') => Some (0, d') end
      else Some (-1, d)
    end
  end.

(** * Link ids *)
Definition na_eqb (a b : netaddr) : bool :=
  str_eqb (na_addr a) (na_addr b) && (na_type a =? na_type b) && (na_plen a =? na_plen b).

(** oonf_layer2.h:504-513 [struct oonf_layer2_neigh_key] *)
Record nkey := mkKey { k_addr : netaddr; k_len : Z; k_lid : bytes }.
Definition is_mac (a : netaddr) : bool := (na_type a =? AF_MAC48) || (na_type a =? AF_EUI64).

(** oonf_layer2.c:771-814 [oonf_layer2_neigh_generate_lid]; the tree of counters
    is a table from MAC to [next_id]; memory does not run out.  [None] is the
    return value -1. *)
Fixpoint lid_find (t : list (netaddr * Z)) (m : netaddr) : option Z :=
  match t with [] => None | (a, n) :: t' => if na_eqb a m then Some n else lid_find t' m end.
Definition lid_set (t : list (netaddr * Z)) (m : netaddr) (n : Z) : list (netaddr * Z) :=
  (m, n) :: filter (fun e => negb (na_eqb (fst e) m)) t.
Record lorigin := mkLo { lo_lid : bool; lo_index : Z }.
Definition generate_lid (t : list (netaddr * Z)) (o : lorigin) (mac : netaddr) : option (nkey * list (netaddr * Z)) :=
  if negb (lo_lid o) then None
  else if negb (is_mac mac) then None
  else
    let next := match lid_find t mac with Some n => n | None => 1 end in
    let four := be_enc 4 next in
    Some (mkKey mac 4 (Z.land (lo_index o) 255 :: skipn 1 four ++ repeat 0 12), lid_set t mac (u32 (next + 1))).

(** * Text of neighbor keys *)
Definition L2KEY_BUF : Z := NETADDR_STR_LEN + 5 + 16 * 2.

(** oonf_layer2.c:1402-1437 [oonf_layer2_neigh_key_to_string]: the text in the
    buffer, whose former content is [buf].  [netaddr_to_string] is
    [to_prefixstring] without forced prefix (netaddr.h:288-291). *)
Definition key_to_string (ntop4 ntop6 : bytes -> bytes) (buf : bytes) (k : nkey) (show_mac : bool) : option bytes :=
  if negb (is_mac (k_addr k)) then Some (zs "-")
  else
    match (if show_mac then to_prefixstring ntop4 ntop6 (k_addr k) false else Some []) with
    | None => None
    | Some t =>
      if k_len k =? 0 then Some t
      else
        let pre := t ++ (if show_mac then [44] else []) in
        if k_len k >? zlen (k_lid k) then None
        else if L2KEY_BUF <? zlen pre then None
        else
          match hex_from_bin (skipn (length pre) buf) (L2KEY_BUF - zlen pre) (firstn (Z.to_nat (k_len k)) (k_lid k)) with
          | None => None
          | Some (n, b) => if n <? 0 then None else Some (pre ++ firstn (Z.to_nat n) b)
          end
    end.

(** position of the first comma *)
Fixpoint split_comma (s : bytes) : option (bytes * bytes) :=
  match s with
  | [] => None
  | c :: s' => if c =? 44 then Some ([], s')
               else match split_comma s' with None => None | Some (a, b) => Some (c :: a, b) end
  end.
(** oonf_layer2.c:1445-1484 [oonf_layer2_neigh_key_from_string]: return code and key *)
Definition key0 : nkey := mkKey na_unspec 0 (repeat 0 16).
Definition key_addr (pton4 pton6 : bytes -> option bytes) (addr : bytes) (len : Z) (lid : bytes) : Z * nkey :=
  match from_string pton4 pton6 addr with
  | None => (-3, mkKey na_unspec len lid)
  | Some a => if is_mac a then (0, mkKey a len lid) else (-4, mkKey na_unspec len lid)
  end.
Definition key_from_string (pton4 pton6 : bytes -> option bytes) (s : bytes) : option (Z * nkey) :=
  match split_comma s with
  | None => Some (key_addr pton4 pton6 s 0 (repeat 0 16))
  | Some (a, l) =>
    if zlen a >? NETADDR_STR_LEN then Some (-1, key0)
    else
      match strscpy (repeat 0 (Z.to_nat NETADDR_STR_LEN)) 0 (Some (s ++ [0])) (zlen a + 1) with
      | None => None
      | Some nbuf =>
        match strlen nbuf 0 with
        | None => None
        | Some n =>
          match hex_to_bin (repeat 0 16) 16 l with
          | None => None
          | Some (r, lid) =>
            if r <? 0 then Some (-2, mkKey na_unspec 0 lid)
            else Some (key_addr pton4 pton6 (firstn (Z.to_nat n) nbuf) r lid)
          end
        end
      end
  end.
