(** DLEP sessions: parsing of signals, extensions, the TLV writer and reader.
    src/generic/dlep/dlep_session.c, dlep_extension.c, dlep_writer.c, dlep_reader.c
    and the tables of the extensions.

    Simplifications.  Trees are lists (C01-C04); allocations succeed; logging is
    left out.  Access outside of an array, call of a NULL function pointer and
    use of a value that was never written are the distinct outcome [None].  The
    processing callbacks of the extensions are an oracle: it sees everything they
    can see (the signal they are called for and all calls before) and answers
    with what they do to the session, see [action]. *)
From Verif Require Import Base.

(** enum dlep_parser_error, include/oonf/generic/dlep/dlep_session.h:66-98 *)
Definition P_OKAY := 0.
Definition P_TERMINATED := -1.
Definition P_HEADER := -2.
Definition P_INCOMPLETE := -3.
Definition P_UNSUPPORTED := -4.
Definition P_LENGTH := -5.
Definition P_MANDATORY := -6.
Definition P_DUPLICATE := -7.
Definition P_INTERNAL := -9.

(** dlep_iana.h:71-180: extension counts, control numbers, signals, TLVs *)
Definition BASE_COUNT := 3.
Definition EXT_COUNT := 4.
Definition KEEP_RESTRICTION := -3.
Definition KILL_SESSION := -2.
Definition ALL_SIGNALS := -1.
Definition IS_UDP := 65536.
Definition UDP_DISCOVERY := 65537.
Definition UDP_OFFER := 65538.
Definition TERMINATION := 5.
Definition TERMINATION_ACK := 6.
Definition EXTENSIONS_TLV := 6.
(** dlep_session.c:62-66 *)
Definition VALUE_STEP := 128.

(** struct dlep_parser_tlv, dlep_session.h:103-124 (the flag [remove] is only
    used inside of _update_allowed_tlvs); struct dlep_parser_value, 129-138 *)
Record tlv := mkT { t_id : Z; t_first : Z; t_last : Z; t_min : Z; t_max : Z }.
Record value := mkV { v_next : Z; v_index : Z; v_len : Z }.

(** struct dlep_extension_signal and struct dlep_extension, dlep_extension.h:61-290;
    [s_proc]: there is a processing callback for the role of this node,
    [x_deact]: there is a callback for deactivation *)
Record signal := mkS { s_id : Z; s_supp : list Z; s_mand : list Z; s_dup : list Z; s_proc : bool }.
Record ext := mkX { x_id : Z; x_sigs : list signal; x_tlvs : list (Z * (Z * Z)); x_deact : bool }.

(** What a callback sees of a signal: the extension and signal it is called for,
    the allowed TLVs with the positions of their values, the array of values and
    the bytes of the signal behind [tlv_ptr]. *)
Record call := mkCall { k_ext : Z; k_sig : Z; k_tlvs : list tlv; k_values : list (option value); k_ptr : bytes }.

(** struct dlep_session, dlep_session.h:268-343, as far as it is used by the
    parser.  An element of [q_values] is [None] before it has been written.
    [q_exts] has the ids of extensions[0 .. extension_count - 1]. *)
Record sess := mkSess {
  q_restrict : Z; q_next : Z; q_tlvs : list tlv; q_values : list (option value); q_max : Z; q_exts : list Z;
  q_calls : list call;      (* processing callbacks called so far *)
  q_out : list Z }.         (* signals written by the parser itself *)

Definition set_restrict (s : sess) (r : Z) : sess :=
  mkSess r (q_next s) (q_tlvs s) (q_values s) (q_max s) (q_exts s) (q_calls s) (q_out s).
Definition set_next (s : sess) (r : Z) : sess :=
  mkSess (q_restrict s) r (q_tlvs s) (q_values s) (q_max s) (q_exts s) (q_calls s) (q_out s).
Definition set_parsed (s : sess) (ts : list tlv) (vs : list (option value)) (m : Z) : sess :=
  mkSess (q_restrict s) (q_next s) ts vs m (q_exts s) (q_calls s) (q_out s).
Definition set_exts (s : sess) (ts : list tlv) (es : list Z) : sess :=
  mkSess (q_restrict s) (q_next s) ts (q_values s) (q_max s) es (q_calls s) (q_out s).
Definition add_call (s : sess) (c : call) : sess :=
  mkSess (q_restrict s) (q_next s) (q_tlvs s) (q_values s) (q_max s) (q_exts s) (q_calls s ++ [c]) (q_out s).
Definition add_out (s : sess) (x : Z) : sess :=
  mkSess (q_restrict s) (q_next s) (q_tlvs s) (q_values s) (q_max s) (q_exts s) (q_calls s) (q_out s ++ [x]).

(** dlep_parser_get_tlv, dlep_session.h:381-385 *)
Definition get_tlv (ts : list tlv) (id : Z) : option tlv := find (fun t => t_id t =? id) ts.
(** update of an element in the tree *)
Definition put_tlv (ts : list tlv) (t : tlv) : list tlv := map (fun x => if t_id x =? t_id t then t else x) ts.

(** memcpy of two bytes and ntohs *)
Definition get16 (b : bytes) (i : Z) : option Z :=
  match zget b i, zget b (i + 1) with Some x, Some y => Some (256 * x + y) | _, _ => None end.
(** realloc of the array of values *)
Definition resize (vs : list (option value)) (n : Z) : list (option value) :=
  firstn (Z.to_nat n) vs ++ repeat None (Z.to_nat n - length vs).

(** ** Parsing: _parse_tlvstream, dlep_session.c:859-952 *)

(** The loop of line 904; result: error code, allowed TLVs, values, value_max_count.
    [None] is a fault (or no fuel left). *)
Fixpoint parse (fuel : nat) (buf : bytes) (length idx count : Z) (ts : list tlv) (vs : list (option value)) (max : Z) :
  option (Z * (list tlv * list (option value) * Z)) :=
  match fuel with
  | O => None
  | S fuel =>
    if idx <? length then
      if length - idx <? 4 then Some (P_HEADER, (ts, vs, max))
      else
        match get16 buf idx, get16 buf (idx + 2) with
        | Some ty, Some len =>
          let idx := idx + 4 in
          if length <? idx + len then Some (P_INCOMPLETE, (ts, vs, max))
          else
            match get_tlv ts ty with
            | None => Some (P_UNSUPPORTED, (ts, vs, max))
            | Some t =>
              if (t_max t <? len) || (len <? t_min t) then Some (P_LENGTH, (ts, vs, max))
              else
                let '(vs, max) := if max =? count then (resize vs (count + VALUE_STEP), max + VALUE_STEP) else (vs, max) in
                match zset vs count (Some (mkV (-1) (u16 idx) len)) with
                | None => None
                | Some vs =>
                  if t_last t =? -1 then
                    parse fuel buf length (idx + len) (count + 1) (put_tlv ts (mkT ty count count (t_min t) (t_max t))) vs max
                  else
                    match zget vs (t_last t) with
                    | Some (Some v) =>
                      match zset vs (t_last t) (Some (mkV count (v_index v) (v_len v))) with
                      | Some vs => parse fuel buf length (idx + len) (count + 1) (put_tlv ts (mkT ty (t_first t) count (t_min t) (t_max t))) vs max
                      | None => None
                      end
                    | _ => None
                    end
                end
            end
        | _, _ => None
        end
    else Some (P_OKAY, (ts, vs, max))
  end.
(** The whole function: reset of the allowed TLVs (899-902) and the loop. *)
Definition parse_tlvstream (s : sess) (buf : bytes) (length : Z) : option (Z * sess) :=
  let ts := map (fun t => mkT (t_id t) (-1) (-1) (t_min t) (t_max t)) (q_tlvs s) in
  match parse (S (Z.to_nat length)) buf length 0 0 ts (q_values s) (q_max s) with
  | None => None
  | Some (r, (ts, vs, m)) => Some (r, set_parsed s ts vs m)
  end.

(** ** Checks *)

(** _check_mandatory, dlep_session.c:961-1001 *)
Fixpoint mandatory (ts : list tlv) (l : list Z) : Z :=
  match l with
  | [] => P_OKAY
  | id :: l' => match get_tlv ts id with
                | None => P_INTERNAL
                | Some t => if t_first t =? -1 then P_MANDATORY else mandatory ts l'
                end
  end.
Definition check_mandatory (s : sess) (x : ext) (ty : Z) : Z :=
  match find (fun g => s_id g =? ty) (x_sigs x) with
  | None => P_OKAY
  | Some g => mandatory (q_tlvs s) (s_mand g)
  end.
(** _check_duplicate, dlep_session.c:1010-1055.  The loop of 1041-1047 sets
    [extsig] in every round: without a match it is the last signal. *)
Fixpoint dup_signal (l : list signal) (ty : Z) (last : option signal) : option signal :=
  match l with
  | [] => last
  | g :: l' => if s_id g =? ty then Some g else dup_signal l' ty (Some g)
  end.
Fixpoint duplicates (ts : list tlv) (dup l : list Z) : Z :=
  match l with
  | [] => P_OKAY
  | id :: l' => match get_tlv ts id with
                | None => duplicates ts dup l'
                | Some t => if t_first t =? t_last t then duplicates ts dup l'
                            else if existsb (Z.eqb (t_id t)) dup then duplicates ts dup l' else P_DUPLICATE
                end
  end.
Definition check_duplicate (s : sess) (x : ext) (ty : Z) : Z :=
  match dup_signal (x_sigs x) ty None with
  | None => P_OKAY
  | Some g => duplicates (q_tlvs s) (s_dup g) (s_supp g)
  end.

(** ** Extensions *)

Definition get_ext (xs : list ext) (id : Z) : option ext := find (fun x => x_id x =? id) xs.

(** the ids of an extensions TLV, dlep_session.c:246-247 and 265-266 *)
Fixpoint ext_ids (b : bytes) (i : Z) (n : nat) : option (list Z) :=
  match n with
  | O => Some []
  | S n => match get16 b (2 * i), ext_ids b (i + 1) n with Some x, Some l => Some (x :: l) | _, _ => None end
  end.

(** _update_allowed_tlvs, dlep_session.c:694-743: additions for the TLVs of one
    extension (708-735), false for a conflict *)
Fixpoint add_tlvs (ts : list tlv) (l : list (Z * (Z * Z))) : bool * list tlv :=
  match l with
  | [] => (true, ts)
  | (id, (lo, hi)) :: l' =>
    match get_tlv ts id with
    | None => add_tlvs (ts ++ [mkT id (-1) (-1) lo hi]) l'
    | Some t => if (t_min t =? lo) && (t_max t =? hi) then add_tlvs ts l' else (false, ts)
    end
  end.
Fixpoint add_exts (xs : list ext) (ts : list tlv) (es : list Z) : option (bool * list tlv) :=
  match es with
  | [] => Some (true, ts)
  | e :: es' =>
    match get_ext xs e with
    | None => None
    | Some x => let '(ok, ts) := add_tlvs ts (x_tlvs x) in if ok then add_exts xs ts es' else Some (false, ts)
    end
  end.
(** TLVs that are part of an active extension (lines 734 and 738-742) *)
Definition ext_has (xs : list ext) (es : list Z) (id : Z) : bool :=
  existsb (fun e => match get_ext xs e with Some x => existsb (fun t => fst t =? id) (x_tlvs x) | None => false end) es.
Definition update_allowed (xs : list ext) (s : sess) : option (Z * sess) :=
  match add_exts xs (q_tlvs s) (q_exts s) with
  | None => None
  | Some (false, ts) => Some (-1, set_exts s ts (q_exts s))
  | Some (true, ts) => Some (0, set_exts s (filter (fun t => ext_has xs (q_exts s) (t_id t)) ts) (q_exts s))
  end.

(** dlep_session_update_extensions, dlep_session.c:232-277.
    Deactivation of the extensions that are not listed (243-261) ... *)
Fixpoint deactivate (xs : list ext) (es ids : list Z) : option unit :=
  match es with
  | [] => Some tt
  | e :: es' =>
    if existsb (Z.eqb e) ids then deactivate xs es' ids
    else match get_ext xs e with
         | Some x => if x_deact x then deactivate xs es' ids else None
         | None => None
         end
  end.
(** ... and the new list (264-275); [n] is extension_count *)
Fixpoint append_exts (xs : list ext) (es ids : list Z) : option (list Z) :=
  match ids with
  | [] => Some es
  | e :: ids' =>
    match get_ext xs e with
    | None => append_exts xs es ids'
    | Some _ => if zlen es <? BASE_COUNT + EXT_COUNT then append_exts xs (es ++ [e]) ids' else None
    end
  end.
Definition update_extensions (xs : list ext) (s : sess) (ptr : bytes) (count : Z) : option (Z * sess) :=
  match ext_ids ptr 0 (Z.to_nat count) with
  | None => None
  | Some ids =>
    if zlen (q_exts s) <? BASE_COUNT then None
    else
      match deactivate xs (skipn (Z.to_nat BASE_COUNT) (q_exts s)) ids with
      | None => None
      | Some _ =>
        match append_exts xs (firstn (Z.to_nat BASE_COUNT) (q_exts s)) ids with
        | None => None
        | Some es => update_allowed xs (set_exts s (q_tlvs s) es)
        end
      end
  end.

(** dlep_session_get_tlv_value and dlep_session_get_tlv_binary,
    dlep_session.c:664-684, dlep_session.h:384-432: the first value of a TLV, as
    pointer and length; [Some None] if there is none *)
Definition first_value (ts : list tlv) (vs : list (option value)) (ptr : bytes) (id : Z) : option (option (bytes * Z)) :=
  match get_tlv ts id with
  | None => Some None
  | Some t =>
    if t_first t =? -1 then Some None
    else match zget vs (t_first t) with
         | Some (Some v) => Some (Some (skipn (Z.to_nat (v_index v)) ptr, v_len v))
         | _ => None
         end
  end.

(** ** Callbacks *)

(** What a processing callback does: assignments to restrict_signal and
    next_restrict_signal, and the update of the extension list from the
    extensions TLV (proto_radio.c:284-294, proto_router.c:368-378). *)
Inductive action := SetRestrict (r : Z) | SetNext (r : Z) | UpdateExt.
(** The callback called last answers with actions and its result. *)
Definition oracle := list call -> list action * Z.

(** result 1: update of the extensions failed, the callback returns *)
Fixpoint act (xs : list ext) (s : sess) (ptr : bytes) (l : list action) : option (Z * sess) :=
  match l with
  | [] => Some (0, s)
  | SetRestrict r :: l' => act xs (set_restrict s r) ptr l'
  | SetNext r :: l' => act xs (set_next s r) ptr l'
  | UpdateExt :: l' =>
    match first_value (q_tlvs s) (q_values s) ptr EXTENSIONS_TLV with
    | None => None
    | Some o =>
      let '(p, n) := match o with Some (p, n) => (p, n / 2) | None => ([], 0) end in
      match update_extensions xs s p n with
      | None => None
      | Some (r, s) => if r =? 0 then act xs s ptr l' else Some (1, s)
      end
    end
  end.

(** _call_extension_processing, dlep_session.c:1063-1088 *)
Definition call_processing (xs : list ext) (cb : oracle) (s : sess) (ptr : bytes) (x : ext) (ty : Z) : option (Z * sess) :=
  match find (fun g => s_id g =? ty) (x_sigs x) with
  | None => Some (P_OKAY, s)
  | Some g =>
    if s_proc g then
      let s := add_call s (mkCall (x_id x) ty (q_tlvs s) (q_values s) ptr) in
      let '(l, r) := cb (q_calls s) in
      match act xs s ptr l with
      | None => None
      | Some (e, s) => Some (if (e =? 0) && (r =? 0) then P_OKAY else -1, s)
      end
    else Some (P_OKAY, s)
  end.

(** _handle_extension, dlep_session.c:753-791 *)
Definition handle_extension (xs : list ext) (cb : oracle) (s : sess) (ptr : bytes) (x : ext) (ty : Z) : option (Z * sess) :=
  if existsb (Z.eqb (x_id x)) (q_exts s) then
    let r := check_mandatory s x ty in
    if r =? 0 then
      let r := check_duplicate s x ty in
      if r =? 0 then call_processing xs cb s ptr x ty else Some (r, s)
    else Some (r, s)
  else Some (P_OKAY, s).
Fixpoint handle_all (xs : list ext) (cb : oracle) (s : sess) (ptr : bytes) (l : list ext) (ty : Z) : option (Z * sess) :=
  match l with
  | [] => Some (P_OKAY, s)
  | x :: l' =>
    match handle_extension xs cb s ptr x ty with
    | None => None
    | Some (r, s) => if r =? 0 then handle_all xs cb s ptr l' ty else Some (r, s)
    end
  end.
(** _process_tlvs, dlep_session.c:801-819.  The callbacks get the bytes of the signal
    only: reading behind its end counts as a fault even when the buffer has more
    bytes there. *)
Definition process_tlvs (xs : list ext) (cb : oracle) (s : sess) (ty len : Z) (ptr : bytes) : option (Z * sess) :=
  match parse_tlvstream s ptr len with
  | None => None
  | Some (r, s) => if r =? 0 then handle_all xs cb s (firstn (Z.to_nat len) ptr) xs ty else Some (r, s)
  end.

(** ** Signals *)

(** _send_terminate, dlep_session.c:827-836; the written signal is only recorded *)
Definition send_terminate (s : sess) : sess :=
  if (q_restrict s =? UDP_DISCOVERY) || (q_restrict s =? UDP_OFFER) then s
  else set_next (set_restrict (add_out s TERMINATION) TERMINATION_ACK) TERMINATION_ACK.

(** dlep_session_process_signal, dlep_session.c:372-446; [ptr]: the memory from the
    start of the signal, [length]: the parameter of this name *)
Definition process_signal (xs : list ext) (cb : oracle) (s : sess) (ptr : bytes) (length : Z) (udp : bool) : option (Z * sess) :=
  let s := set_next s KEEP_RESTRICTION in
  if length <? 4 then Some (0, s)
  else
    match get16 ptr 0, get16 ptr 2 with
    | Some ty, Some len =>
      let ty := if udp then ty + IS_UDP else ty in
      if length <? len + 4 then Some (0, s)
      else if negb (q_restrict s =? ALL_SIGNALS) && negb (q_restrict s =? ty) then Some (-1, s)
      else
        match process_tlvs xs cb s ty len (skipn 4 ptr) with
        | None => None
        | Some (r, s) =>
          if r =? P_TERMINATED then Some (r, s)
          else if negb (r =? P_OKAY) then Some (len + 4, send_terminate s)
          else if negb (q_next s =? KEEP_RESTRICTION) then Some (len + 4, set_restrict s (q_next s))
          else Some (len + 4, s)
        end
    | _, _ => None
    end.

(** dlep_session_process_buffer, dlep_session.c:330-362 *)
Fixpoint buffer_loop (fuel : nat) (xs : list ext) (cb : oracle) (s : sess) (buf : bytes) (length offset : Z) (udp : bool) : option (Z * sess) :=
  match fuel with
  | O => None
  | S fuel =>
    if 0 <? length then
      match process_signal xs cb s (skipn (Z.to_nat offset) buf) length udp with
      | None => None
      | Some (r, s) =>
        if r <? 0 then Some (r, s)
        else if r =? 0 then Some (offset, s)
        else if q_restrict s =? KILL_SESSION then Some (offset, s)
        else buffer_loop fuel xs cb s buf (length - r) (offset + r) udp
      end
    else Some (offset, s)
  end.
Definition process_buffer (xs : list ext) (cb : oracle) (s : sess) (buf : bytes) (length : Z) (udp : bool) : option (Z * sess) :=
  buffer_loop (S (Z.to_nat length)) xs cb s buf length 0 udp.

(** dlep_session_process_tcp, dlep_session.c:285-318, after [chunk] was appended to
    the input buffer [inp].  The state after a cleanup is [inl].  Sending of the
    answers is left out, abuf_pull removes bytes from the front (C32). *)
Definition process_tcp (xs : list ext) (cb : oracle) (s : sess) (inp chunk : bytes) : option (sess + sess * bytes) :=
  let inp := inp ++ chunk in
  match process_buffer xs cb s inp (zlen inp) false with
  | None => None
  | Some (r, s) =>
    if r <? 0 then Some (inl s)
    else if q_restrict s =? KILL_SESSION then Some (inl s)
    else Some (inr (s, skipn (Z.to_nat r) inp))
  end.
Fixpoint tcp_run (xs : list ext) (cb : oracle) (s : sess) (inp : bytes) (chunks : list bytes) : option (sess + sess * bytes) :=
  match chunks with
  | [] => Some (inr (s, inp))
  | c :: cs =>
    match process_tcp xs cb s inp c with
    | Some (inr (s, inp)) => tcp_run xs cb s inp cs
    | r => r
    end
  end.

(** dlep_session_add, dlep_session.c:120-175: all extensions of the tree are active
    (an array with too few elements is a fault); calloc of the array *)
Definition session_add (xs : list ext) (restrict : Z) : option (Z * sess) :=
  if zlen xs <=? BASE_COUNT + EXT_COUNT then
    update_allowed xs (mkSess restrict 0 [] (repeat None (Z.to_nat VALUE_STEP)) 0 (map x_id xs) [] [])
  else None.

(** ** The extensions of this code *)

(** src/generic/dlep/ext_base_proto/proto.c:60-300, process callbacks from proto_radio.c:95-153 and proto_router.c:80-143 *)
Definition base_proto (radio : bool) : ext := mkX (-3) [
  mkS 65537 [] [] [] (radio);
  mkS 65538 [4; 2; 3] [] [] (negb radio);
  mkS 1 [5; 4; 6] [5; 4] [] (radio);
  mkS 2 [5; 1; 4; 6] [5; 1; 4] [] (negb radio);
  mkS 3 [8; 9] [] [8; 9] (true);
  mkS 4 [1] [1] [] (true);
  mkS 5 [1] [] [] (true);
  mkS 6 [1] [] [] (true);
  mkS 7 [7; 8; 9; 10; 11] [7] [8; 9; 10; 11] (negb radio);
  mkS 8 [7; 1] [7; 1] [] (true);
  mkS 11 [7] [7] [] (negb radio);
  mkS 12 [7; 1] [7; 1] [] (true);
  mkS 13 [7; 8; 9; 10; 11] [7] [8; 9; 10; 11] (negb radio);
  mkS 16 [] [] [] (true);
  mkS 14 [7; 14; 15; 16] [7] [] (radio);
  mkS 15 [7; 12; 13; 14; 15; 16; 17; 18; 19; 1] [7] [] (negb radio)] [(1, (1, 65535)); (2, (5, 7)); (3, (17, 19)); (4, (1, 255)); (5, (4, 4)); (6, (2, 65534)); (7, (6, 8)); (12, (8, 8)); (13, (8, 8)); (14, (8, 8)); (15, (8, 8)); (16, (8, 8)); (17, (1, 1)); (18, (1, 1)); (19, (1, 1))] false.
(** src/generic/dlep/ext_base_ip/ip.c:80-160 *)
Definition base_ip (radio : bool) : ext := mkX (-2) [
  mkS 2 [8; 10; 9; 11] [] [8; 10; 9; 11] (negb radio);
  mkS 3 [8; 10; 9; 11] [] [8; 10; 9; 11] (negb radio);
  mkS 7 [8; 10; 9; 11] [] [8; 10; 9; 11] (negb radio);
  mkS 13 [8; 10; 9; 11] [] [8; 10; 9; 11] (negb radio)] [(7, (6, 8)); (8, (5, 5)); (10, (6, 6)); (9, (17, 17)); (11, (18, 18))] false.
(** src/generic/dlep/ext_base_metric/metric.c:58-155 *)
Definition base_metric (radio : bool) : ext := mkX (-1) [
  mkS 2 [12; 13; 14; 15; 16; 17; 18; 19; 20] [12; 13; 14; 15; 16] [] (negb radio);
  mkS 3 [12; 13; 14; 15; 16; 17; 18; 19] [] [] (negb radio);
  mkS 7 [7; 12; 13; 14; 15; 16; 17; 18; 19] [7] [] (negb radio);
  mkS 13 [7; 12; 13; 14; 15; 16; 17; 18; 19] [7] [] (negb radio)] [(7, (6, 8)); (12, (8, 8)); (13, (8, 8)); (14, (8, 8)); (15, (8, 8)); (16, (8, 8)); (17, (1, 1)); (18, (1, 1)); (19, (1, 1))] false.
(** src/generic/dlep/ext_l1_statistics/l1_statistics.c:71-160 *)
Definition l1_statistics (radio : bool) : ext := mkX 65520 [
  mkS 2 [65408; 65409; 65410; 65411; 65412; 65413; 65414; 65415; 65416] [65408; 65409] [] (negb radio);
  mkS 3 [65408; 65409; 65410; 65411; 65412; 65413; 65414; 65415; 65416] [] [] (negb radio);
  mkS 7 [7; 65415; 65416] [7] [] (negb radio);
  mkS 13 [7; 65415; 65416] [7] [] (negb radio)] [(65408, (8, 16)); (65409, (8, 16)); (65410, (4, 4)); (65411, (8, 8)); (65412, (8, 8)); (65413, (8, 8)); (65414, (8, 8)); (65415, (4, 4)); (65416, (4, 4))] false.
(** src/generic/dlep/ext_l2_statistics/l2_statistics.c:57-142 *)
Definition l2_statistics (radio : bool) : ext := mkX 65521 [
  mkS 2 [65417; 65418; 65422; 65423; 65419; 65420; 65421; 65427] [] [] (negb radio);
  mkS 3 [65417; 65418; 65422; 65423; 65419; 65420; 65421; 65427] [] [] (negb radio);
  mkS 7 [7; 65417; 65418; 65422; 65423; 65419; 65420; 65421; 65427] [7] [] (negb radio);
  mkS 13 [7; 65417; 65418; 65422; 65423; 65419; 65420; 65421; 65427] [7] [] (negb radio)] [(65417, (8, 8)); (65418, (8, 8)); (65422, (8, 8)); (65423, (8, 8)); (65419, (8, 8)); (65420, (8, 8)); (65421, (8, 8)); (65427, (8, 8))] false.
(** src/generic/dlep/ext_radio_attributes/radio_attributes.c:56-93 *)
Definition radio_attributes (radio : bool) : ext := mkX 65522 [
  mkS 2 [65424; 65425; 65426] [] [] (negb radio);
  mkS 3 [65424; 65425; 65426] [] [] (negb radio)] [(65424, (1, 1)); (65425, (1, 1)); (65426, (1, 1))] false.
(** src/generic/dlep/ext_lid/lid.c:62-175 *)
Definition lid (radio : bool) : ext := mkX 65523 [
  mkS 2 [22] [] [] (negb radio);
  mkS 7 [21] [] [] (false);
  mkS 8 [21] [] [] (false);
  mkS 11 [21] [] [] (false);
  mkS 12 [21] [] [] (false);
  mkS 13 [21] [] [] (false);
  mkS 14 [21] [] [] (false);
  mkS 15 [21] [] [] (false)] [(21, (1, 16)); (22, (2, 2))] true.
(** dlep_router_interface.c:121-127, dlep_radio_interface.c:107-113: all of them are
    registered; the tree is sorted by id *)
Definition all_exts (radio : bool) : list ext :=
  [base_proto radio; base_ip radio; base_metric radio; l1_statistics radio; l2_statistics radio; radio_attributes radio; lid radio].

(** ** Writer, dlep_writer.c.  [out] is the content of the output buffer. *)

Definition be16 (n : Z) : bytes := [u16 n / 256; u16 n mod 256].
Definition be32 (n : Z) : bytes := [u32 n / 16777216; u32 n / 65536 mod 256; u32 n / 256 mod 256; u32 n mod 256].
Fixpoint be_bytes (n : nat) (z : Z) : bytes := match n with O => [] | S n => be_bytes n (z / 256) ++ [z mod 256] end.

(** dlep_writer_start_signal, 68-74: returns the new buffer and signal_start *)
Definition start_signal (out : bytes) (ty : Z) : bytes * Z := (out ++ be16 ty ++ [0; 0], zlen out).
(** dlep_writer_add_tlv, 84-88: [len] is a uint16_t parameter, [data] the memory of the caller *)
Definition add_tlv (out : bytes) (ty : Z) (data : bytes) (len : Z) : option bytes :=
  let len := u16 len in
  if zlen data <? len then None else Some (out ++ be16 ty ++ be16 len ++ firstn (Z.to_nat len) data).
(** dlep_writer_add_tlv2, 99-105 *)
Definition add_tlv2 (out : bytes) (ty : Z) (d1 : bytes) (l1 : Z) (d2 : bytes) (l2 : Z) : option bytes :=
  let l1 := u16 l1 in let l2 := u16 l2 in
  if (zlen d1 <? l1) || (zlen d2 <? l2) then None
  else Some (out ++ be16 ty ++ be16 (l1 + l2) ++ firstn (Z.to_nat l1) d1 ++ firstn (Z.to_nat l2) d2).
(** dlep_writer_finish_signal, 114-141: result and buffer *)
Definition put16 (out : bytes) (i n : Z) : option bytes :=
  match be16 n with
  | [a; b] => match zset out i a with Some out => zset out (i + 1) b | None => None end
  | _ => None
  end.
Definition finish_signal (out : bytes) (start : Z) : option (Z * bytes) :=
  let length := zlen out - start in
  if 65539 <? length then Some (-1, out)
  else match put16 out (start + 2) (length - 4) with Some out => Some (0, out) | None => None end.

(** dlep_writer_add_heartbeat_tlv, 148-155 *)
Definition add_heartbeat (out : bytes) (interval : Z) : option bytes := add_tlv out 5 (be32 interval) 4.
(** dlep_writer_add_peer_type_tlv, 163-170: [text] is the string without its zero *)
Definition add_peer_type (out text : bytes) (secured : bool) : option bytes :=
  add_tlv2 out 4 [if secured then 1 else 0] 1 (text ++ [0]) (zlen text).
(** dlep_writer_add_status, 352-365 *)
Definition add_status (out : bytes) (status : Z) (text : bytes) : option (Z * bytes) :=
  if 65534 <? zlen text then Some (-1, out)
  else match add_tlv2 out 1 [u8 status] 1 (text ++ [0]) (zlen text) with Some out => Some (0, out) | None => None end.
(** dlep_writer_add_uint64, 321-328 (be64toh swaps as htobe64 does) *)
Definition add_uint64 (out : bytes) (n ty : Z) : option bytes := add_tlv out ty (be_bytes 8 (u64 n)) 8.
(** dlep_writer_add_int64, 336-343: htonl takes the lower 32 bits; the result is a
    uint32_t that is stored in the uint64_t.  On a machine with little endian the
    four bytes of the number come first, in network order, then four zeros. *)
Definition add_int64 (out : bytes) (n ty : Z) : option bytes := add_tlv out ty (be32 n ++ [0; 0; 0; 0]) 8.
(** dlep_writer_add_lid_length_tlv, 216-223 *)
Definition add_lid_length (out : bytes) (n : Z) : option bytes := add_tlv out 22 (be16 n) 2.
(** dlep_writer_add_supported_extensions, 373-376: the array has the ids in
    network order *)
Definition add_extensions (out : bytes) (ids : list Z) : option bytes :=
  add_tlv out 6 (flat_map be16 ids) (u16 (zlen ids) * 2).

(** ** Reader, dlep_reader.c: on the pointer and length of a value *)

Fixpoint get_be (b : bytes) (i : Z) (n : nat) (acc : Z) : option Z :=
  match n with
  | O => Some acc
  | S n => match zget b i with Some x => get_be b (i + 1) n (acc * 256 + x) | None => None end
  end.
(** dlep_reader_heartbeat_tlv, 61-77; dlep_reader_uint64, 397-413; dlep_reader_int64,
    404-421; dlep_reader_lid_length_tlv, 178-194 *)
Definition read_heartbeat (p : bytes) : option Z := get_be p 0 4 0.
Definition read_uint64 (p : bytes) : option Z := get_be p 0 8 0.
Definition read_int64 (p : bytes) : option Z := match get_be p 0 8 0 with Some n => Some (s64 n) | None => None end.
Definition read_lid_length (p : bytes) : option Z := get_be p 0 2 0.

(** memcpy into a text buffer: source, first byte, destination, count (a size_t) *)
Definition copy_text (p text : bytes) (n : Z) : option bytes :=
  let n := u64 n in
  if (zlen p <? n + 1) || (zlen text <? n) then None
  else Some (firstn (Z.to_nat n) (skipn 1 p) ++ skipn (Z.to_nat n) text).
(** dlep_reader_peer_type, 89-120: [text] is the buffer of the caller (its length is
    text_length); result: return code, secured, buffer *)
Definition read_peer_type (p : bytes) (len : Z) (text : bytes) : option (Z * bool * bytes) :=
  if len =? 0 then Some (-1, false, text)
  else
    match zget p 0 with
    | None => None
    | Some f =>
      let sec := negb (Z.land f 1 =? 0) in
      if (1 <? len) && (0 <? zlen text) then
        if len - 1 <? zlen text - 1 then
          match copy_text p text (len - 1) with
          | Some text => match zset text (len - 1) 0 with Some text => Some (0, sec, text) | None => None end
          | None => None
          end
        else
          match copy_text p text (zlen text - 2) with
          | Some text' => match zset text' (u64 (zlen text - 2)) 0 with Some text => Some (0, sec, text) | None => None end
          | None => None
          end
      else Some (0, sec, text)
    end.
(** dlep_reader_status, 452-482 *)
Definition read_status (p : bytes) (len : Z) (text : bytes) : option (Z * bytes) :=
  match zget p 0 with
  | None => None
  | Some st =>
    if (1 <? len) && (0 <? zlen text) then
      if len <=? zlen text then
        match copy_text p text (len - 1) with
        | Some text => match zset text (len - 1) 0 with Some text => Some (st, text) | None => None end
        | None => None
        end
      else
        match copy_text p text (zlen text - 1) with
        | Some text => match zset text (zlen text - 1) 0 with Some text => Some (st, text) | None => None end
        | None => None
        end
    else if 0 <? zlen text then match zset text 0 0 with Some text => Some (st, text) | None => None end
    else Some (st, text)
  end.
(** dlep_reader_lid_tlv, 153-168: memcpy into link_id[16] *)
Definition read_lid (p : bytes) (len : Z) : option bytes :=
  if (16 <? len) || (zlen p <? len) then None else Some (firstn (Z.to_nat len) p).
