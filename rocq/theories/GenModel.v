(** Model of the message generator (src/librfc5444/rfc5444_msg_generator.c):
    address compression, fragmentation and the writing of address blocks.

    Address objects are identified by their position in the address list of
    the message; pointers to them are positions ([None]: NULL).  int values do
    not wrap in the model (sizes are far below 2^31); bytes written are cut to
    8 bits.  A fault ([None]) is a NULL pointer, an access outside of the
    compression table, a failing assertion, or a walk along a list which does
    not find its end.  Post-processors are not modelled. *)
From Verif Require Import Base BitsModel.

(** struct rfc5444_writer_addrtlv and its tlvtype
    (include/oonf/librfc5444/rfc5444_writer.h:95-129, 166-201): [gt_id] is the
    identity of the tlvtype object *)
Record gtlv := Gtlv { gt_id : Z; gt_type : Z; gt_ext : Z; gt_value : bytes }.
Definition gt_full (t : gtlv) : Z := gt_type t * 256 + gt_ext t.
Definition gt_len (t : gtlv) : Z := zlen (gt_value t).
(** struct rfc5444_writer_address (131-164), the fields set by the providers;
    the TLVs are in the order of the tree *)
Record gaddr := Gaddr { ga_bytes : bytes; ga_plen : Z; ga_mand : bool; ga_tlvs : list gtlv }.
(** ... and the fields of the generator *)
Record aobj := Aobj { ao_index : Z; ao_start : option Z; ao_multi : bool; ao_head : Z; ao_end : option Z; ao_done : bool }.
Definition aobj0 : aobj := Aobj 0 None false 0 None false.

(** struct _rfc5444_internal_addr_compress_session (rfc5444_msg_generator.c:66-81) *)
Record acse := Acs { ac_ptr : option Z; ac_total : Z; ac_current : Z; ac_multi : bool; ac_closed : bool }.
Definition acse0 : acse := Acs None 0 0 false false.
(** acs[RFC5444_MAX_ADDRLEN], cleared *)
Definition acs0 : list acse := repeat acse0 16.

(** _tlvblock_count and _tlvblock_multi of every tlvtype and head length *)
Definition tstate := Z -> Z -> Z * bool.
Definition tst0 : tstate := fun _ _ => (0, false).
Definition tst_set (f : tstate) (id i : Z) (v : Z * bool) : tstate :=
  fun id' i' => if (id' =? id) && (i' =? i) then v else f id' i'.

(** length of the common start of two byte strings *)
Fixpoint common (a b : bytes) : Z :=
  match a, b with
  | x :: a', y :: b' => if x =? y then 1 + common a' b' else 0
  | _, _ => 0
  end.
Fixpoint beqb (a b : bytes) : bool :=
  match a, b with
  | [], [] => true
  | x :: a', y :: b' => (x =? y) && beqb a' b'
  | _, _ => false
  end.

(** _close_addrblock (rfc5444_msg_generator.c:806-838).  The result is the
    table and the new fields of [last] (start, multiple prefix lengths, head
    length), if they are stored. *)
Fixpoint close_best (acs : list acse) (is : list Z) (best size : Z) : option (Z * Z) :=
  match is with
  | [] => Some (best, size)
  | i :: is' =>
    match zget acs i with
    | None => None
    | Some e => if ac_total e <? size then close_best acs is' i (ac_total e) else close_best acs is' best size
    end
  end.
Definition set_total (e : acse) (t : Z) : acse := Acs (ac_ptr e) t (ac_current e) (ac_multi e) (ac_closed e).
Fixpoint close_totals (acs : list acse) (is : list Z) (size : Z) : option (list acse) :=
  match is with
  | [] => Some acs
  | i :: is' =>
    match zget acs i with
    | None => None
    | Some e => match zset acs i (set_total e size) with None => None | Some acs' => close_totals acs' is' size end
    end
  end.
Definition close_addrblock (al : Z) (acs : list acse) (last : aobj) (common_head : Z) : option (list acse * aobj) :=
  if common_head >? al then Some (acs, last)
  else
    let is := zrange (common_head + 1) (Z.to_nat (al - (common_head + 1))) in
    match zget acs common_head with
    | None => None
    | Some e =>
      match close_best acs is common_head (ac_total e) with
      | None => None
      | Some (best, size) =>
        match zget acs best with
        | None => None
        | Some b =>
          let last' := if negb (ac_closed b) || (match ao_start last with None => true | Some _ => false end)
                       then Aobj (ao_index last) (ac_ptr b) (ac_multi b) best (ao_end last) (ao_done last)
                       else last in
          match close_totals acs is size with None => None | Some acs' => Some (acs', last') end
        end
      end
    end.

(** _compress_address (rfc5444_msg_generator.c:850-1066): _same_length and
    _same_value of a TLV; [prev] is the address before it in the fragment.
    avl_find returns the first TLV of the type. *)
Definition same_of (prev : option gaddr) (t : gtlv) : bool * bool :=
  match prev with
  | None => (false, false)
  | Some p =>
    match find (fun x => gt_full x =? gt_full t) (ga_tlvs p) with
    | Some l => if gt_len l =? gt_len t then (true, beqb (gt_value t) (gt_value l)) else (false, false)
    | None => (false, false)
    end
  end.
Definition tlv_cost (t : gtlv) : Z :=
  2 + (if gt_ext t >? 0 then 1 else 0) + 2 + (if gt_len t >? 255 then 1 else 0) + (if gt_len t >? 0 then 1 else 0) + gt_len t.
(** cost of the TLVs if the block continues (1001-1023) *)
Fixpoint tlvs_continue (st : tstate) (i : Z) (closed : bool) (prev : option gaddr) (ts : list gtlv) : Z :=
  match ts with
  | [] => 0
  | t :: ts' =>
    let '(sl, sv) := same_of prev t in
    (if closed || negb sl then tlv_cost t
     else if snd (st (gt_id t) i) then gt_len t
     else if negb sv then gt_len t * fst (st (gt_id t) i) else 0)
    + tlvs_continue st i closed prev ts'
  end.
(** the update (1047-1060) *)
Fixpoint tlvs_update (st : tstate) (i : Z) (closed : bool) (prev : option gaddr) (ts : list gtlv) : tstate :=
  match ts with
  | [] => st
  | t :: ts' =>
    let '(sl, sv) := same_of prev t in
    let '(c, m) := st (gt_id t) i in
    tlvs_update (tst_set st (gt_id t) i (if closed || negb sl then (1, false) else (c + 1, if negb sv then true else m)))
      i closed prev ts'
  end.

Definition index_of (objs : list aobj) (p : option Z) : option Z :=
  match p with
  | None => None
  | Some p => match zget objs p with None => None | Some o => Some (ao_index o) end
  end.

(** one head length [i] (938-1061); [a] is the new address at position [pos] *)
Definition compress_one (al : Z) (objs : list aobj) (prev : option gaddr) (a : gaddr) (pos index same_prefixlen common_head : Z)
    (acs : list acse) (st : tstate) (i : Z) : option (list acse * tstate) :=
  match zget acs i, zget acs (al - 1) with
  | Some e, Some el =>
    let special := negb (ga_plen a =? al * 8) in
    let closed := (match prev with None => true | Some _ => false end) || (common_head <? i) in
    let new_cost := 2 + (if i >? 0 then 1 else 0) + al + (if special then 1 else 0) + 2 + fold_right Z.add 0 (map tlv_cost (ga_tlvs a)) in
    match (if closed then Some (0, ac_multi e)
           else if ac_multi e then Some (al - i + 1, true)
           else if same_prefixlen =? 1 then
             match index_of objs (ac_ptr e) with None => None | Some ix => Some (al - i + (ix - index + 1), true) end
           else Some (al - i, false)) with
    | None => None
    | Some (cc, multi) =>
      let continue_cost := cc + tlvs_continue st i closed prev (ga_tlvs a) in
      let restart := closed || (ac_total e + continue_cost >? ac_total el + new_cost) in
      let closed' := match prev with None => ac_closed e | Some _ => restart end in
      let e' := if restart then Acs (Some pos) (ac_total el) new_cost false closed'
                else Acs (ac_ptr e) (ac_total e) continue_cost multi closed' in
      match zset acs i e' with
      | None => None
      | Some acs' => Some (acs', tlvs_update st i restart prev (ga_tlvs a))
      end
    end
  | _, _ => None
  end.
Fixpoint compress_all (al : Z) (objs : list aobj) (prev : option gaddr) (a : gaddr) (pos index same_prefixlen common_head : Z)
    (is : list Z) (acs : list acse) (st : tstate) : option (list acse * tstate) :=
  match is with
  | [] => Some (acs, st)
  | i :: is' =>
    match compress_one al objs prev a pos index same_prefixlen common_head acs st i with
    | None => None
    | Some (acs', st') => compress_all al objs prev a pos index same_prefixlen common_head is' acs' st'
    end
  end.
(** the whole function; [prevpos] is the position of the address before [pos]
    in the fragment *)
Definition compress_address (al : Z) (addrs : list gaddr) (objs : list aobj) (acs : list acse) (st : tstate)
    (prevpos : option Z) (pos same_prefixlen : Z) : option (list aobj * list acse * tstate * Z) :=
  match zget addrs pos, zget objs pos with
  | Some a, Some o =>
    match prevpos with
    | None =>
      match compress_all al objs None a pos (ao_index o) same_prefixlen 0 (zrange 0 (Z.to_nat al)) acs st with
      | None => None
      | Some (acs', st') => Some (objs, acs', st', same_prefixlen)
      end
    | Some pp =>
      match zget addrs pp, zget objs pp with
      | Some la, Some lo =>
        let spl := if ga_plen la =? ga_plen a then same_prefixlen + 1 else 1 in
        let ch := common (ga_bytes la) (ga_bytes a) in
        match close_addrblock al acs lo ch with
        | None => None
        | Some (acs1, lo') =>
          match zset objs pp lo' with
          | None => None
          | Some objs' =>
            match compress_all al objs' (Some la) a pos (ao_index o) spl ch (zrange 0 (Z.to_nat al)) acs1 st with
            | None => None
            | Some (acs', st') => Some (objs', acs', st', spl)
            end
          end
        end
      | _, _ => None
      end
    end
  | _, _ => None
  end.

(** * Writing a fragment *)

(** the address before / after [p] in the fragment *)
Fixpoint before (cur : list Z) (p : Z) : option Z :=
  match cur with
  | a :: (b :: _) as r => if b =? p then Some a else before r p
  | _ => None
  end.
(** list_for_element_range: from the head of the list up to [e]; the rest *)
Fixpoint upto (l : list Z) (e : Z) : option (list Z * list Z) :=
  match l with
  | [] => None
  | x :: l' => if x =? e then Some ([x], l')
               else match upto l' e with None => None | Some (m, r) => Some (x :: m, r) end
  end.

(** the forward pointers of _finalize_message_fragment (1458-1476); [n] bounds
    the number of rounds *)
Fixpoint forward_pointers (n : nat) (cur : list Z) (objs : list aobj) (first addr : Z) : option (list aobj) :=
  match n with
  | O => None
  | S n' =>
    match zget objs addr with
    | None => None
    | Some o =>
      match ao_start o with
      | None => None
      | Some s =>
        match zget objs s with
        | None => None
        | Some os =>
          match zset objs s (Aobj (ao_index os) (ao_start os) (ao_multi o) (ao_head o) (Some addr) (ao_done os)) with
          | None => None
          | Some objs' =>
            if s =? first then Some objs'
            else match index_of objs' (Some first) with
                 | None => None
                 | Some ix => if ao_index os >? ix then
                     match before cur s with None => None | Some addr' => forward_pointers n' cur objs' first addr' end
                   else None
                 end
          end
        end
      end
    end
  end.

(** ** TLVs of a block *)
(** an entry of tlvtype->_current_tlv_list: address (position and index) and TLV *)
Record cent := Cent { ce_pos : Z; ce_index : Z; ce_tlv : gtlv }.
(** a tlvtype of the list active_tlvtypes *)
Record actv := Actv { av_id : Z; av_list : list cent; av_same : bool }.

(** _write_addresstlv (rfc5444_msg_generator.c:1067-1136): the bytes *)
Definition write_addresstlv (first last : Z) (firstindex : Z) (v : actv) : option bytes :=
  match av_list v with
  | [] => None
  | tf :: _ =>
    let tl := List.last (av_list v) tf in
    let t := ce_tlv tf in
    let '(fi, ib) :=
      if (ce_pos tf =? first) && (ce_pos tl =? last) then (0, [])
      else if ce_index tf =? ce_index tl then (0x40, [u8 (ce_index tf - firstindex)])
      else (0x20, [u8 (ce_index tf - firstindex); u8 (ce_index tl - firstindex)]) in
    let total := if av_same v then gt_len t else u16 (gt_len t * (ce_index tl - ce_index tf + 1)) in
    let flags := (if gt_ext t =? 0 then 0 else 0x80) + fi + (if av_same v then 0 else 0x04)
                 + (if total >? 255 then 0x08 else 0) + (if total >? 0 then 0x10 else 0) in
    Some ([gt_type t; flags] ++ (if gt_ext t =? 0 then [] else [gt_ext t]) ++ ib
          ++ (if total >? 255 then [total / 256] else []) ++ (if total >? 0 then [Z.land total 255] else [])
          ++ (if gt_len t >? 0 then (if av_same v then gt_value t else flat_map (fun c => gt_value (ce_tlv c)) (av_list v)) else []))
  end.

(** one TLV in the loop of _write_addresstlvs (1171-1195) *)
Fixpoint find_act (act : list actv) (id : Z) : option actv :=
  match act with
  | [] => None
  | v :: act' => if av_id v =? id then Some v else find_act act' id
  end.
Fixpoint put_act (act : list actv) (v : actv) : list actv :=
  match act with
  | [] => []
  | w :: act' => if av_id w =? av_id v then v :: act' else w :: put_act act' v
  end.
Definition one_tlv (first last firstindex : Z) (prevpos : option Z) (c : cent) (same : bool)
    (act : list actv) (out : bytes) : option (list actv * bytes) :=
  let id := gt_id (ce_tlv c) in
  match find_act act id with
  | None => Some (act ++ [Actv id [c] true], out)
  | Some v =>
    match av_list v with
    | [] => None
    | c0 :: _ =>
      let l := List.last (av_list v) c0 in
      if negb (match prevpos with Some p => ce_pos l =? p | None => false end) || negb (gt_len (ce_tlv l) =? gt_len (ce_tlv c)) then
        match write_addresstlv first last firstindex v with
        | None => None
        | Some b => Some (put_act act (Actv id [c] true), out ++ b)
        end
      else Some (put_act act (Actv id (av_list v ++ [c]) (av_same v && same)), out)
    end
  end.
Fixpoint addr_tlvs (first last firstindex : Z) (prevpos : option Z) (pos index : Z) (prev : option gaddr) (ts : list gtlv)
    (act : list actv) (out : bytes) : option (list actv * bytes) :=
  match ts with
  | [] => Some (act, out)
  | t :: ts' =>
    match one_tlv first last firstindex prevpos (Cent pos index t) (snd (same_of prev t)) act out with
    | None => None
    | Some (act', out') => addr_tlvs first last firstindex prevpos pos index prev ts' act' out'
    end
  end.
(** an address of the fragment: position, index, the address itself, and the
    address before it in the fragment (for _same_value) *)
Record memb := Memb { mb_pos : Z; mb_index : Z; mb_addr : gaddr; mb_prev : option gaddr }.
Fixpoint block_tlvs (first last firstindex : Z) (prevpos : option Z) (ms : list memb) (act : list actv) (out : bytes) : option (list actv * bytes) :=
  match ms with
  | [] => Some (act, out)
  | m :: ms' =>
    match addr_tlvs first last firstindex prevpos (mb_pos m) (mb_index m) (mb_prev m) (ga_tlvs (mb_addr m)) act out with
    | None => None
    | Some (act', out') => block_tlvs first last firstindex (Some (mb_pos m)) ms' act' out'
    end
  end.
Fixpoint write_active (first last firstindex : Z) (act : list actv) : option bytes :=
  match act with
  | [] => Some []
  | v :: act' =>
    match write_addresstlv first last firstindex v, write_active first last firstindex act' with
    | Some b, Some r => Some (b ++ r)
    | _, _ => None
    end
  end.
(** _write_addresstlvs (rfc5444_msg_generator.c:1147-1205) *)
Definition write_addresstlvs (ms : list memb) : option bytes :=
  match ms with
  | [] => None
  | m :: _ =>
    let first := mb_pos m in
    let last := mb_pos (List.last ms m) in
    match block_tlvs first last (mb_index m) None ms [] [] with
    | None => None
    | Some (act, out) => match write_active first last (mb_index m) act with None => None | Some r => Some (out ++ r) end
    end
  end.

(** ** Address blocks *)
(** one round of the loop of _write_addresses (rfc5444_msg_generator.c:1241-1357) *)
Definition write_block (al head : Z) (multi : bool) (ms : list memb) : option bytes :=
  match ms with
  | [] => None
  | m :: rest =>
    let s := ga_bytes (mb_addr m) in
    let '(head_len, tail_len) :=
      match rest with
      | [] => (0, 0)
      | _ => (head, fold_left (fun tl x => Z.min tl (common (rev s) (rev (ga_bytes (mb_addr x))))) ms (u8 (al - head - 1)))
      end in
    let tail := skipn (Z.to_nat (al - tail_len)) s in
    let zero_tail := (tail_len >? 0) && forallb (fun x => x =? 0) tail in
    let mid_len := al - head_len - tail_len in
    let num := u8 (mb_index (List.last ms m) - mb_index m + 1) in
    let flags := (if head_len =? 0 then 0 else 0x80)
                 + (if tail_len >? 0 then if zero_tail then 0x20 else 0x40 else 0)
                 + (if multi then 0x08 else if ga_plen (mb_addr m) =? al * 8 then 0 else 0x10) in
    match write_addresstlvs ms with
    | None => None
    | Some tlvs =>
      Some ([num; flags]
            ++ (if head_len =? 0 then [] else head_len :: firstn (Z.to_nat head_len) s)
            ++ (if tail_len >? 0 then tail_len :: (if zero_tail then [] else tail) else [])
            ++ flat_map (fun x => firstn (Z.to_nat mid_len) (skipn (Z.to_nat head_len) (ga_bytes (mb_addr x)))) ms
            ++ (if multi then map (fun x => ga_plen (mb_addr x)) ms
                else if ga_plen (mb_addr m) =? al * 8 then [] else [ga_plen (mb_addr m)])
            ++ [u8 (zlen tlvs / 256); Z.land (zlen tlvs) 255] ++ tlvs)
    end
  end.

(** the members of a list of positions; [prev] is the address before *)
Fixpoint members (addrs : list gaddr) (objs : list aobj) (prev : option gaddr) (ps : list Z) : option (list memb) :=
  match ps with
  | [] => Some []
  | p :: ps' =>
    match zget addrs p, zget objs p with
    | Some a, Some o =>
      match members addrs objs (Some a) ps' with
      | None => None
      | Some ms => Some (Memb p (ao_index o) a prev :: ms)
      end
    | _, _ => None
    end
  end.
(** _write_addresses (rfc5444_msg_generator.c:1213-1362): [rest] is the fragment
    from addr_start on, [prev] the address before it *)
Fixpoint write_addresses (n : nat) (al : Z) (addrs : list gaddr) (objs : list aobj) (prev : option gaddr) (rest : list Z) : option bytes :=
  match n with
  | O => None
  | S n' =>
    match rest with
    | [] => None
    | s :: _ =>
      match zget objs s with
      | None => None
      | Some o =>
        match ao_end o with
        | None => None
        | Some e =>
          match upto rest e with
          | None => None
          | Some (ps, rest') =>
            match members addrs objs prev ps with
            | None => None
            | Some ms =>
              match write_block al (ao_head o) (ao_multi o) ms with
              | None => None
              | Some b =>
                match rest' with
                | [] => Some b
                | _ => match write_addresses n' al addrs objs (zget addrs e) rest' with None => None | Some r => Some (b ++ r) end
                end
              end
            end
          end
        end
      end
    end
  end.

(** the address part of _finalize_message_fragment (1458-1478) *)
Definition finalize_addresses (al : Z) (addrs : list gaddr) (objs : list aobj) (cur : list Z) : option (list aobj * bytes) :=
  match cur with
  | [] => Some (objs, [])
  | first :: _ =>
    match forward_pointers (length cur) cur objs first (List.last cur first) with
    | None => None
    | Some objs' =>
      match write_addresses (length cur) al addrs objs' None cur with
      | None => None
      | Some b => Some (objs', b)
      end
    end
  end.

(** * The loop of rfc5444_writer_create_message *)
(** [gc_max] is max_msg_size after the subtractions (rfc5444_msg_generator.c:283-285),
    as an int; [gc_room] the room behind header and TLVs in the message buffer *)
Record gcfg := Gcfg { gc_al : Z; gc_addrs : list gaddr; gc_max : Z; gc_room : Z }.
(** a message given to the second half of _finalize_message_fragment: the
    addresses of the fragment, the bytes of its address blocks, not_fragmented *)
Record frag := Frag { fr_members : list Z; fr_bytes : bytes; fr_single : bool }.
Record gstate := Gst {
  gs_objs : list aobj; gs_pos : Z; gs_first : bool; gs_cur : list Z; gs_acs : list acse; gs_tst : tstate; gs_spl : Z;
  gs_fp : Z; gs_lp : option Z; gs_idx : Z; gs_nonmand : Z; gs_single : bool; gs_out : list frag }.
Inductive gres := GRun (s : gstate) | GDone (r : Z) (out : list frag) | GFault.

Definition G_OKAY : Z := 0.
Definition G_MTU_TOO_SMALL : Z := -12.

(** state before the loop (258-291); the addresses are fresh
    (rfc5444_writer.c:249-268: calloc) *)
Definition g_init (c : gcfg) : gstate :=
  Gst (repeat aobj0 (length (gc_addrs c))) 0 true [] acs0 tst0 0 0 None 0 0 true [].

(** _close_addrblock(acs, writer, last_processed, 0) and
    _finalize_message_fragment; the bytes have to fit into the message buffer *)
Definition emit (c : gcfg) (s : gstate) (objs : list aobj) (acs : list acse) (cur : list Z) (single : bool) : option (list aobj * list acse * frag) :=
  match gs_lp s with
  | None => None
  | Some lp =>
    match zget objs lp with
    | None => None
    | Some lo =>
      match close_addrblock (gc_al c) acs lo 0 with
      | None => None
      | Some (acs', lo') =>
        match zset objs lp lo' with
        | None => None
        | Some objs1 =>
          match finalize_addresses (gc_al c) (gc_addrs c) objs1 cur with
          | None => None
          | Some (objs2, b) => if zlen b >? gc_room c then None else Some (objs2, acs', Frag cur b single)
          end
        end
      end
    end
  end.

(** best compression (323-335) *)
Fixpoint best_head (objs : list aobj) (acs : list acse) (index : Z) (is : list Z) (best size : Z) : option Z :=
  match is with
  | [] => Some best
  | i :: is' =>
    match zget acs i with
    | None => None
    | Some e =>
      match index_of objs (ac_ptr e) with
      | None => None
      | Some ix =>
        let sz := ac_total e + ac_current e in
        if (sz <? size) && (index - ix <=? 254) then best_head objs acs index is' i sz
        else best_head objs acs index is' best size
      end
    end
  end.
Fixpoint add_current (acs : list acse) (is : list Z) : option (list acse) :=
  match is with
  | [] => Some acs
  | i :: is' =>
    match zget acs i with
    | None => None
    | Some e => match zset acs i (set_total e (ac_total e + ac_current e)) with None => None | Some acs' => add_current acs' is' end
    end
  end.

(** one round of the loop (294-384), or the end (386-404) *)
Definition g_step (c : gcfg) (s : gstate) : gres :=
  let al := gc_al c in
  match zget (gc_addrs c) (gs_pos s), zget (gs_objs s) (gs_pos s) with
  | Some a, Some o =>
    if ao_done o && negb (ga_mand a) then
      GRun (Gst (gs_objs s) (gs_pos s + 1) (gs_first s) (gs_cur s) (gs_acs s) (gs_tst s) (gs_spl s) (gs_fp s) (gs_lp s) (gs_idx s) (gs_nonmand s) (gs_single s) (gs_out s))
    else
      let acs := if gs_first s then acs0 else gs_acs s in
      let st := if gs_first s then tst0 else gs_tst s in
      let spl := if gs_first s then 1 else gs_spl s in
      let fp := if gs_first s then gs_pos s else gs_fp s in
      let index := gs_idx s in
      match zset (gs_objs s) (gs_pos s) (Aobj index (ao_start o) (ao_multi o) (ao_head o) (ao_end o) (ao_done o)) with
      | None => GFault
      | Some objs =>
        let prevpos := match gs_cur s with [] => None | p :: _ => Some (List.last (gs_cur s) p) end in
        match compress_address al (gc_addrs c) objs acs st prevpos (gs_pos s) spl with
        | None => GFault
        | Some (objs, acs, st, spl) =>
          match best_head objs acs index (zrange 0 (Z.to_nat al)) (-1) (gc_max c + 1) with
          | None => GFault
          | Some best =>
            if best =? -1 then
              if gs_nonmand s =? 0 then GDone G_MTU_TOO_SMALL (gs_out s)
              else
                match emit c s objs acs (gs_cur s) false with
                | None => GFault
                | Some (objs, acs, f) =>
                  GRun (Gst objs fp true [] acs st spl fp (gs_lp s) (index + 1) (gs_nonmand s) false (gs_out s ++ [f]))
                end
            else
              match add_current acs (zrange 0 (Z.to_nat al)), zget objs (gs_pos s) with
              | Some acs, Some o =>
                match zset objs (gs_pos s) (Aobj (ao_index o) (ao_start o) (ao_multi o) (ao_head o) (ao_end o) true) with
                | None => GFault
                | Some objs =>
                  GRun (Gst objs (gs_pos s + 1) false (gs_cur s ++ [gs_pos s]) acs st spl fp (Some (gs_pos s)) (index + 1)
                          (if negb (ao_done o) && negb (ga_mand a) then gs_nonmand s + 1 else gs_nonmand s) (gs_single s) (gs_out s))
                end
              | _, _ => GFault
              end
          end
        end
      end
  | _, _ =>
    (* end of the list *)
    match gs_lp s with
    | None => GDone G_OKAY (gs_out s)
    | Some _ =>
      match emit c s (gs_objs s) (gs_acs s) (gs_cur s) (gs_single s) with
      | None => GFault
      | Some (_, _, f) => GDone G_OKAY (gs_out s ++ [f])
      end
    end
  end.
Fixpoint g_run (n : nat) (c : gcfg) (s : gstate) : gres :=
  match n with
  | O => GRun s
  | S n' => match g_step c s with GRun s' => g_run n' c s' | r => r end
  end.
(** the messages: no addresses: one message without address blocks (264-272) *)
Definition generate (n : nat) (c : gcfg) : gres :=
  match gc_addrs c with
  | [] => GDone G_OKAY [Frag [] [] true]
  | _ => g_run n c (g_init c)
  end.
