(** Model of the dispatching half of src/librfc5444/rfc5444_reader.c: TLV
    matching, consumer callbacks, messages and packets.

    Callbacks are an oracle [cb] that maps the history of callback events (the
    newest first, including the present call) to an answer; so every
    deterministic behaviour of stateful callbacks is covered.  Callbacks that
    register or unregister consumers while a packet is parsed are not
    modelled. *)
From Verif Require Import Base BitsModel NetaddrModel ReaderModel.

(** ** Consumers, include/oonf/librfc5444/rfc5444_reader.h *)
Record centry := {
  ce_mandatory : bool; ce_type : Z; ce_ext : Z; ce_match_ext : bool;
  ce_min : Z; ce_max : Z; ce_match_len : bool; ce_copy : bool
}.
Record consumer := {
  c_id : Z; c_order : Z; c_default : bool; c_msgid : Z; c_addrblock : bool;
  c_entries : list centry;
  c_start : bool; c_end : bool; c_tlv : bool; c_block : bool; c_failed : bool  (* callback is set *)
}.

(** rfc5444_reader.c:344-347 [_calc_tlvconsumer_intorder] *)
Definition ce_order (e : centry) : Z := u16 (Z.lor (Z.shiftl (ce_type e) 8) (ce_ext e)).

(** rfc5444_reader.c:1300-1323: stable insertion of the entries into the
    sorted list; [l] is kept in order, a new entry goes behind the last entry
    with a smaller or equal key *)
Fixpoint ce_insert (e : centry) (l : list centry) : list centry :=
  match l with
  | [] => [e]
  | x :: l' => if existsb (fun y => ce_order y <=? ce_order e) l then x :: ce_insert e l' else e :: l
  end.
Definition ce_fix (e : centry) : centry :=
  if ce_min e >? ce_max e
  then {| ce_mandatory := ce_mandatory e; ce_type := ce_type e; ce_ext := ce_ext e; ce_match_ext := ce_match_ext e;
          ce_min := ce_min e; ce_max := ce_min e; ce_match_len := ce_match_len e; ce_copy := ce_copy e |}
  else e.
Definition sort_entries (l : list centry) : list centry :=
  fold_left (fun acc e => ce_insert (ce_fix e) acc) l [].

(** rfc5444_reader.c:319-337 [_consumer_avl_comp] *)
Definition c_cmp (a b : consumer) : Z :=
  if c_order a >? c_order b then 1
  else if c_order a <? c_order b then -1
  else if c_addrblock a && negb (c_addrblock b) then 1
  else if negb (c_addrblock a) && c_addrblock b then -1
  else 0.
(** avl_insert of a tree with duplicates: behind all equal elements *)
Fixpoint c_insert (c : consumer) (l : list consumer) : list consumer :=
  match l with
  | [] => [c]
  | x :: l' => if c_cmp c x <? 0 then c :: l else x :: c_insert c l'
  end.
(** rfc5444_reader.c:1290-1329 [_add_consumer] *)
Definition add_consumer (c : consumer) (entries : list centry) (l : list consumer) : list consumer :=
  c_insert {| c_id := c_id c; c_order := c_order c; c_default := c_default c; c_msgid := c_msgid c;
              c_addrblock := c_addrblock c; c_entries := sort_entries entries; c_start := c_start c;
              c_end := c_end c; c_tlv := c_tlv c; c_block := c_block c; c_failed := c_failed c |} l.

(** rfc5444_reader.c:365-381 [_compare_tlvtypes] *)
Definition cmp_types (t : option tlv) (e : option centry) : Z :=
  match e, t with
  | None, None => 0
  | None, Some _ => -1
  | Some _, None => 1
  | Some e, Some t => if ce_match_ext e then t_order t - ce_order e else t_type t - ce_type e
  end.

(** ** Events *)
Inductive kind := KPacket | KMessage | KAddress.
(** include/oonf/librfc5444/rfc5444_reader.h:121-209, the fields consumers
    use.  [x_block] is addr_block_buffer as an offset, [None] outside of
    address callbacks. *)
Record ctx := { x_kind : kind; x_pktseq : option Z; x_hdr : option mhdr; x_addr : netaddr; x_index : Z; x_block : option Z }.
Definition view := (list tlv * option bytes)%type.
Inductive event :=
| EvStart (c : Z) (x : ctx)
| EvTlv (c : Z) (x : ctx) (t : tlv)
| EvBlock (c : Z) (x : ctx) (failed : bool) (views : list view)
| EvEnd (c : Z) (x : ctx) (dropped : bool)
| EvForward (x : ctx) (start len : Z).

Record answer := { a_res : Z; a_dnf : bool; a_drops : list bool }.
Record ds := { d_trace : list event; d_dnf : bool; d_kind : kind }.
Definition set_kind (st : ds) (k : kind) : ds := {| d_trace := d_trace st; d_dnf := d_dnf st; d_kind := k |}.
Definition reset_dnf (st : ds) : ds := {| d_trace := d_trace st; d_dnf := false; d_kind := d_kind st |}.

Definition t_set_single (t : tlv) (v : option Z) : tlv :=
  {| t_type := t_type t; t_flags := t_flags t; t_ext := t_ext t; t_length := t_length t; t_single := v;
     t_idx1 := t_idx1 t; t_idx2 := t_idx2 t; t_value := t_value t; t_multi := t_multi t; t_drop := t_drop t |}.
Definition t_set_drop (t : tlv) (i : Z) : tlv :=
  {| t_type := t_type t; t_flags := t_flags t; t_ext := t_ext t; t_length := t_length t; t_single := t_single t;
     t_idx1 := t_idx1 t; t_idx2 := t_idx2 t; t_value := t_value t; t_multi := t_multi t; t_drop := i :: t_drop t |}.
Definition zmem (i : Z) (l : list Z) : bool := existsb (Z.eqb i) l.

(** line 655: the TLV concerns the index and was not dropped for it *)
Definition index_match (idx : Z) (t : tlv) : bool :=
  negb (zmem idx (t_drop t)) && (t_idx1 t <=? idx) && (idx <=? t_idx2 t).

Section Dispatch.
Context (cb : list event -> answer) (pkt : bytes).

Definition call (st : ds) (ev : event) : ds * answer :=
  let tr := ev :: d_trace st in
  let a := cb tr in
  ({| d_trace := tr; d_dnf := d_dnf st || a_dnf a; d_kind := d_kind st |}, a).

(** state of one pass over the two sorted lists, rfc5444_reader.c:649-754 *)
Record sl := {
  sl_pos : nat;                               (* position of the next TLV in the tree *)
  sl_done : list tlv;                         (* TLVs already passed, newest first *)
  sl_tlvs : list tlv;                         (* from [tlv] to the end of the tree *)
  sl_ents : list centry;                      (* from [cons_entry] to the end of the list *)
  sl_cur : list (nat * tlv) * option bytes;   (* cons_entry->tlv chain and copied value *)
  sl_views : list (list (nat * tlv) * option bytes);  (* same for passed entries, newest first *)
  sl_failed : bool;                           (* constraints_failed *)
  sl_st : ds
}.

(** lines 713-721: copy the value into the private buffer of the consumer
    (which has room for max_length bytes) *)
Definition copy_value (e : centry) (t : tlv) : outcome (option bytes) :=
  if ce_copy e && (t_length t >? 0) then
    let len := if t_length t <? ce_max e then t_length t else ce_max e in
    match t_single t with
    | None => Bad F_null
    | Some off => match copy_out pkt off (Z.to_nat len) with
                  | None => Bad (F_read off)
                  | Some b => Ok (Some b)
                  end
    end
  else Ok None.

(** lines 696-732 *)
Definition sched_match (e : centry) (t : option tlv) (pos : nat) (is_match : bool)
           (cur : list (nat * tlv) * option bytes) (failed : bool)
    : outcome (bool * (list (nat * tlv) * option bytes)) :=
  let failed := failed || (ce_mandatory e && negb is_match) in
  if is_match then
    match t with
    | None => Bad F_null
    | Some t =>
      let failed := failed || (ce_match_len e && ((t_length t <? ce_min e) || (ce_max e <? t_length t))) in
      match fst cur with
      | [] => do 'v <- copy_value e t; Ok (failed, ([(pos, t)], v))
      | _ => Ok (failed, (fst cur ++ [(pos, t)], snd cur))
      end
    end
  else Ok (failed, cur).

(** one iteration of the loop; the boolean tells that a callback asked to stop *)
Definition sched_step (c : consumer) (x : ctx) (idx : Z) (s : sl) : outcome (Z * sl) :=
  let im := match sl_tlvs s with t :: _ => index_match idx t | [] => false end in
  let is_match := match sl_tlvs s, sl_ents s with
                  | t :: _, e :: _ => im && (cmp_types (Some t) (Some e) =? 0)
                  | _, _ => false
                  end in
  (* 665-671 *)
  let tlvs := match sl_tlvs s with
              | t :: r => (if im && t_multi t
                           then t_set_single t (option_map (fun v => v + (idx - t_idx1 t) * t_length t) (t_value t))
                           else t) :: r
              | [] => []
              end in
  (* 673-694 *)
  let '(res, tlvs, is_match, st) :=
    match tlvs with
    | t :: r =>
      if im && c_tlv c then
        let '(st, a) := call (sl_st s) (EvTlv (c_id c) x t) in
        if a_res a =? DROP_TLV then (OKAY, t_set_drop t idx :: r, false, st)
        else (a_res a, tlvs, is_match, st)
      else (OKAY, tlvs, is_match, sl_st s)
    | [] => (OKAY, tlvs, is_match, sl_st s)
    end in
  if negb (res =? OKAY) then
    Ok (res, {| sl_pos := sl_pos s; sl_done := sl_done s; sl_tlvs := tlvs; sl_ents := sl_ents s; sl_cur := sl_cur s;
                sl_views := sl_views s; sl_failed := sl_failed s; sl_st := st |})
  else
  (* 696-732 *)
  let d := cmp_types (hd_error tlvs) (hd_error (sl_ents s)) in
  do '(failed, cur) <-
     (if d >=? 0 then
        match sl_ents s with
        | [] => Bad F_null
        | e :: _ => sched_match e (hd_error tlvs) (sl_pos s) is_match (sl_cur s) (sl_failed s)
        end
      else Ok (sl_failed s, sl_cur s));
  (* 733-741 *)
  let '(pos, tdone, tlvs) :=
    match tlvs with
    | t :: r => if d <=? 0 then (S (sl_pos s), t :: sl_done s, r) else (sl_pos s, sl_done s, tlvs)
    | [] => (sl_pos s, sl_done s, tlvs)
    end in
  (* 742-753 *)
  if cmp_types (hd_error tlvs) (hd_error (sl_ents s)) >? 0 then
    match sl_ents s with
    | [] => Bad F_null
    | e :: er =>
      Ok (OKAY, {| sl_pos := pos; sl_done := tdone; sl_tlvs := tlvs; sl_ents := er; sl_cur := ([], None);
                   sl_views := cur :: sl_views s; sl_failed := failed || (ce_mandatory e && negb is_match);
                   sl_st := st |})
    end
  else Ok (OKAY, {| sl_pos := pos; sl_done := tdone; sl_tlvs := tlvs; sl_ents := sl_ents s; sl_cur := cur;
                    sl_views := sl_views s; sl_failed := failed; sl_st := st |}).

Fixpoint sched_loop (fuel : nat) (c : consumer) (x : ctx) (idx : Z) (s : sl) : outcome (Z * sl) :=
  match sl_tlvs s, sl_ents s with
  | [], [] => Ok (OKAY, s)
  | _, _ =>
    match fuel with
    | O => Bad F_fuel
    | S fuel' =>
      do '(res, s) <- sched_step c x idx s;
      if negb (res =? OKAY) then Ok (res, s) else sched_loop fuel' c x idx s
    end
  end.

(** lines 772-778: mark the first TLV of every entry the callback wants to
    drop.  [drops] are the [drop] fields of the entries after the callback. *)
Fixpoint mark_drops (idx : Z) (views : list (list (nat * tlv) * option bytes)) (drops : list bool) (tlvs : list tlv)
    : list tlv :=
  match views, drops with
  | v :: views', dr :: drops' =>
    let tlvs' := match fst v with
                 | (p, _) :: _ => if dr then match nth_error tlvs p with
                                             | Some t => set_nth tlvs p (t_set_drop t idx)
                                             | None => tlvs
                                             end else tlvs
                 | [] => tlvs
                 end in
    mark_drops idx views' drops' tlvs'
  | _, _ => tlvs
  end.

Definition views_of (l : list (list (nat * tlv) * option bytes)) : list view := map (fun v => (map snd (fst v), snd v)) l.

(** rfc5444_reader.c:622-795 [_schedule_tlvblock]: result, the TLVs with
    updated bookkeeping, callback state *)
Definition schedule_tlvblock (c : consumer) (x : ctx) (tlvs : list tlv) (idx : Z) (st : ds) : outcome (Z * list tlv * ds) :=
  do '(res, s) <- sched_loop (length tlvs + length (c_entries c)) c x idx
       {| sl_pos := O; sl_done := []; sl_tlvs := tlvs; sl_ents := c_entries c; sl_cur := ([], None);
          sl_views := []; sl_failed := false; sl_st := st |};
  let tlvs := rev (sl_done s) ++ sl_tlvs s in
  if negb (res =? OKAY) then Ok (res, tlvs, sl_st s)
  else
  let views := rev (sl_views s) in
  let '(st, res, drops) :=
    if c_block c && negb (sl_failed s) then
      let '(st, a) := call (sl_st s) (EvBlock (c_id c) x false (views_of views)) in (st, a_res a, a_drops a)
    else if c_failed c && sl_failed s then
      let '(st, a) := call (sl_st s) (EvBlock (c_id c) x true (views_of views)) in (st, a_res a, a_drops a)
    else (sl_st s, OKAY, []) in
  if res =? DROP_TLV then Ok (OKAY, mark_drops idx views drops tlvs, st)
  else Ok (res, tlvs, st).

(** rfc5444_reader.c:915-937 [schedule_msgtlv_consumer] *)
Definition schedule_msgtlv (c : consumer) (x : ctx) (tlvs : list tlv) (st : ds) : outcome (Z * list tlv * ds) :=
  let st := set_kind st KMessage in
  let '(st, res) := if c_start c then let '(st, a) := call st (EvStart (c_id c) x) in (st, a_res a) else (st, OKAY) in
  if res =? OKAY then schedule_tlvblock c x tlvs 0 st else Ok (res, tlvs, st).

Definition ab_upd (a : ablock) (addr : bytes) (tlvs : list tlv) (drop : list Z) : ablock :=
  {| ab_num := ab_num a; ab_mid_start := ab_mid_start a; ab_mid_len := ab_mid_len a;
     ab_mid_src := ab_mid_src a; ab_prefixes := ab_prefixes a; ab_plen := ab_plen a; ab_addr := addr;
     ab_ptr := ab_ptr a; ab_size := ab_size a; ab_tlv_size := ab_tlv_size a; ab_tlvs := tlvs; ab_drop := drop |}.

(** lines 974-984: put the middle part into the address buffer and build the
    netaddr with its prefix length *)
Definition assemble_addr (addr_len : Z) (ab : ablock) (i : Z) : outcome (bytes * netaddr) :=
  match copy_out pkt (ab_mid_src ab + ab_mid_len ab * i) (Z.to_nat (ab_mid_len ab)) with
  | None => Bad (F_read (ab_mid_src ab + ab_mid_len ab * i))
  | Some mid =>
    match copy_in (ab_addr ab) (ab_mid_start ab) mid with
    | None => Bad (F_mid (ab_mid_start ab) (ab_mid_len ab))
    | Some addr =>
      do 'plen <- match ab_prefixes ab with
                  | Some p => match zget pkt (p + i) with None => Bad (F_read (p + i)) | Some v => Ok v end
                  | None => Ok (ab_plen ab)
                  end;
      match from_binary_prefix (firstn (Z.to_nat addr_len) addr) 0 plen with
      | None => Bad F_head
      | Some (_, a) => Ok (addr, a)
      end
    end
  end.

Definition mkctx (k : kind) (seq : option Z) (h : option mhdr) (a : netaddr) (i : Z) : ctx :=
  {| x_kind := k; x_pktseq := seq; x_hdr := h; x_addr := a; x_index := i; x_block := None |}.
(** lines 958-961 and 984-987: the context of address [i] of a block *)
Definition mkactx (seq : option Z) (h : mhdr) (ab : ablock) (a : netaddr) (i : Z) : ctx :=
  {| x_kind := KAddress; x_pktseq := seq; x_hdr := Some h; x_addr := a; x_index := i; x_block := Some (ab_ptr ab) |}.

(** lines 966-1024: the addresses [is] of one block *)
Fixpoint addr_loop (c : consumer) (seq : option Z) (h : mhdr) (is_ : list Z) (ab : ablock) (st : ds)
    : outcome (Z * ablock * ds) :=
  match is_ with
  | [] => Ok (OKAY, ab, st)
  | i :: is' =>
    if zmem i (ab_drop ab) then addr_loop c seq h is' ab st
    else
      do '(addr, na) <- assemble_addr (mh_addr_len h) ab i;
      let x := mkactx seq h ab na i in
      let '(st, res) := if c_start c then let '(st, a) := call st (EvStart (c_id c) x) in (st, a_res a)
                        else (st, OKAY) in
      do '(res, tlvs, st) <- (if res =? OKAY then schedule_tlvblock c x (ab_tlvs ab) i st
                              else Ok (res, ab_tlvs ab, st));
      let '(st, res) := if c_end c
                        then let '(st, a) := call st (EvEnd (c_id c) x (negb (res =? OKAY))) in
                             (st, if a_res a >? res then a_res a else res)
                        else (st, res) in
      if res =? DROP_ADDRESS then addr_loop c seq h is' (ab_upd ab addr tlvs (i :: ab_drop ab)) st
      else if negb (res =? OKAY) then Ok (res, ab_upd ab addr tlvs (ab_drop ab), st)
      else addr_loop c seq h is' (ab_upd ab addr tlvs (ab_drop ab)) st
  end.

Fixpoint blocks_loop (c : consumer) (seq : option Z) (h : mhdr) (abs : list ablock) (st : ds)
    : outcome (Z * list ablock * ds) :=
  match abs with
  | [] => Ok (OKAY, [], st)
  | ab :: abs' =>
    do '(res, ab, st) <- addr_loop c seq h (zrange 0 (Z.to_nat (ab_num ab))) ab st;
    if negb (res =? OKAY) then Ok (res, ab :: abs', st)
    else do '(res, abs', st) <- blocks_loop c seq h abs' st; Ok (res, ab :: abs', st)
  end.

(** rfc5444_reader.c:947-1031 [schedule_msgaddr_consumer] *)
Definition schedule_msgaddr (c : consumer) (seq : option Z) (h : mhdr) (abs : list ablock) (st : ds)
    : outcome (Z * list ablock * ds) :=
  blocks_loop c seq h abs (set_kind st KAddress).

(** rfc5444_reader.c:1041-1061 [schedule_end_message_cbs] on the consumers of
    the range, last one first *)
Definition c_handles (ty : Z) (c : consumer) : bool := c_default c || (c_msgid c =? ty).
Fixpoint end_cbs (x : ctx) (ty : Z) (l : list consumer) (res : Z) (st : ds) : Z * ds :=
  match l with
  | [] => (res, st)
  | c :: l' =>
    if c_end c && negb (c_addrblock c) && c_handles ty c then
      let '(st, a) := call st (EvEnd (c_id c) x (negb (res =? OKAY))) in
      end_cbs x ty l' (if a_res a >? res then a_res a else res) st
    else end_cbs x ty l' res st
  end.

(** the tree nodes from [first] to [last] *)
Definition range (all : list consumer) (first last : nat) : list consumer :=
  firstn (last + 1 - first) (skipn first all).
Definition schedule_end (all : list consumer) (x : ctx) (ty : Z) (first last : nat) (res : Z) (st : ds) : Z * ds :=
  end_cbs x ty (rev (range all first last)) res (set_kind st KMessage).

(** lines 1186-1229.  [grp] is same_order[0] and same_order[1] as positions in
    the tree ([None] if same_order[0] is NULL), [order1] the order field of
    same_order[1].  The result [None] of the last component says that the
    code jumped to cleanup_parse_message. *)
Fixpoint cons_loop (all : list consumer) (seq : option Z) (h : mhdr) (i : nat) (rest : list consumer)
                   (grp : option (nat * nat)) (order1 : Z) (tlvs : list tlv) (abs : list ablock) (st : ds)
    : outcome (Z * option (nat * nat) * list tlv * list ablock * ds) :=
  match rest with
  | [] => Ok (OKAY, grp, tlvs, abs, st)
  | c :: rest' =>
    if negb (c_handles (mh_type h) c) then cons_loop all seq h (S i) rest' grp order1 tlvs abs st
    else
    let x := mkctx KMessage seq (Some h) na_unspec 0 in
    let '(res, grp, st) :=
      match grp with
      | Some (f, l) => if c_order c >? order1
                       then let '(res, st) := schedule_end all x (mh_type h) f l OKAY st in (res, None, st)
                       else (OKAY, grp, st)
      | None => (OKAY, grp, st)
      end in
    if negb (res =? OKAY) then Ok (res, None, tlvs, abs, st)
    else if c_addrblock c then
      do '(res, abs, st) <- schedule_msgaddr c seq h abs st;
      if negb (res =? OKAY) then Ok (res, grp, tlvs, abs, st)
      else cons_loop all seq h (S i) rest' grp order1 tlvs abs st
    else
      do '(res, tlvs, st) <- schedule_msgtlv c x tlvs st;
      let grp := match grp with None => Some (i, i) | Some (f, _) => Some (f, i) end in
      if negb (res =? OKAY) then Ok (res, grp, tlvs, abs, st)
      else cons_loop all seq h (S i) rest' grp (c_order c) tlvs abs st
  end.

(** lines 1186-1242: all callbacks of a completely parsed message *)
Definition dispatch_message (all : list consumer) (seq : option Z) (msg : message) (st : ds)
    : outcome (Z * ds) :=
  let h := ms_hdr msg in
  do '(res, grp, tlvs, abs, st) <- cons_loop all seq h O all None 0 (ms_tlvs msg) (ms_addrs msg) st;
  match grp with
  | Some (f, l) =>
    Ok (schedule_end all (mkctx KMessage seq (Some h) na_unspec 0) (mh_type h) f l res st)
  | None => Ok (res, st)
  end.

Context (alloc : nat -> bool) (fwd : bool).  (* fwd: forward_message is set *)

(** rfc5444_reader.c:1073-1278 [_handle_message]: result, new pointer *)
Definition handle_message (all : list consumer) (seq : option Z) (start eob : Z) (st : ds) (m : mem)
    : outcome (Z * Z * ds * mem) :=
  let st := reset_dnf st in
  do '(err, msg, m) <- parse_message alloc pkt start eob m;
  do '(res, st) <- (if err =? OKAY then dispatch_message all seq msg st else Ok (err, st));
  let h := ms_hdr msg in
  let st := if ((res =? OKAY) || (res =? DROP_MSG_BUT_FORWARD)) && negb (d_dnf st) && fwd
               && match mh_hoplimit h with Some hl => hl >? 1 | None => false end
            then let st := set_kind st KMessage in
                 fst (call st (EvForward (mkctx KMessage seq (Some h) na_unspec 0) start (mh_size h)))
            else st in
  let m := {| m_n := m_n m; m_tlv := m_tlv m - sum_tlvs (ms_addrs msg) - zlen (ms_tlvs msg);
              m_addr := m_addr m - zlen (ms_addrs msg) |} in
  let res := if (res >? OKAY) && negb (res =? DROP_PACKET) then OKAY else res in
  Ok (res, start + mh_size h, st, m).

(** lines 236-240: the messages of a packet *)
Fixpoint message_loop (fuel : nat) (all : list consumer) (seq : option Z) (ptr eob : Z) (st : ds) (m : mem)
    : outcome (Z * ds * mem) :=
  if eob <=? ptr then Ok (OKAY, st, m)
  else match fuel with
  | O => Bad F_fuel
  | S fuel' =>
    do '(res, ptr, st, m) <- handle_message all seq ptr eob st m;
    if negb (res =? OKAY) then Ok (res, st, m) else message_loop fuel' all seq ptr eob st m
  end.

(** lines 205-234: packet consumers.  The number of consumers that were
    started (last_started) comes back. *)
Fixpoint pkt_loop (rest : list consumer) (seq : option Z) (has_tlv : bool) (tlvs : list tlv) (n : nat) (st : ds)
    : outcome (Z * list tlv * nat * ds) :=
  match rest with
  | [] => Ok (OKAY, tlvs, n, st)
  | c :: rest' =>
    let x := mkctx KPacket seq None na_unspec 0 in
    let '(st, res) := if c_start c then let '(st, a) := call st (EvStart (c_id c) x) in (st, a_res a) else (st, OKAY) in
    if negb (res =? OKAY) then Ok (res, tlvs, S n, st)
    else if has_tlv && (c_tlv c || c_block c) then
      do '(res, tlvs, st) <- schedule_tlvblock c x tlvs 0 st;
      if negb (res =? OKAY) then Ok (res, tlvs, S n, st)
      else pkt_loop rest' seq has_tlv tlvs (S n) st
    else pkt_loop rest' seq has_tlv tlvs (S n) st
  end.

(** lines 245-253 *)
Fixpoint pkt_end (l : list consumer) (seq : option Z) (res : Z) (st : ds) : ds :=
  match l with
  | [] => st
  | c :: l' =>
    if c_end c then pkt_end l' seq res
        (fst (call st (EvEnd (c_id c) (mkctx (d_kind st) seq None na_unspec 0) (negb (res =? OKAY)))))
    else pkt_end l' seq res st
  end.

Definition ds0 : ds := {| d_trace := []; d_dnf := false; d_kind := KPacket |}.

(** rfc5444_reader.c:133-263 [rfc5444_reader_handle_packet].  [pcons] and
    [mcons] are the sorted trees of packet and message consumers.  The result
    also has the callback history (newest first) and the memory.  The packet
    TLV tree is initialised with avl_comp_uint32 although the keys are 16 bit
    numbers; the two padding bytes read behind the key are zero (line 577), so
    the order is the one of [t_order]. *)
Definition handle_packet (pcons mcons : list consumer) (m : mem) : outcome (Z * list event * mem) :=
  let len := zlen pkt in
  if len >? 65535 then Ok (E_TOO_LARGE, [], m)
  else
  do '(first, ptr, err) <- get_u8 pkt 0 len OKAY;
  if negb (Z.shiftr first 4 =? 0) then Ok (E_VERSION, [], m)
  else
  let flags := Z.land first 0x0f in
  do '(seq, ptr, err) <-
     (if flag flags 0x08 then do '(s, ptr, err) <- get_u16 pkt ptr len err; Ok (Some s, ptr, err)
      else Ok (None, ptr, err));
  if negb (err =? OKAY) then Ok (err, [], m)
  else
  let has_tlv := flag flags 0x04 in
  do '(err, ptr, tlvs, m) <-
     (if has_tlv then parse_tlvblock alloc pkt ptr len 0 m else Ok (OKAY, ptr, [], m));
  if negb (err =? OKAY) then Ok (err, [], m)
  else
  do '(res, tlvs', n, st) <- pkt_loop pcons seq has_tlv tlvs O ds0;
  do '(res, st, m) <- (if res =? OKAY then message_loop (S (length pkt)) mcons seq ptr len st m else Ok (res, st, m));
  let st := pkt_end (rev (firstn n pcons)) seq res st in
  Ok (if res =? DROP_PACKET then OKAY else res, d_trace st, m_free_tlvs m (zlen tlvs')).

End Dispatch.
