(** Model of src/base/oonf_http.c: requests, parameters, sites, access control
    and the two built-in handlers.

    Memory is a list of bytes, a pointer into it an offset.  The parser moves
    forward only, so it is a function on the memory from its read pointer on
    ([rest]) that returns the bytes it leaves behind.  Reading behind the end of
    the memory is a fault.  Not modelled: log messages, the text of answers, the
    clock, memory exhaustion; content handlers of plugins are only called. *)
From Verif Require Import Base StrBase StringModel StringSpec NetaddrModel CompModel.

(** the C string at an offset; None: no zero before the end of the memory *)
Fixpoint upto0 (m : bytes) : option bytes :=
  match m with
  | [] => None
  | c :: r => if c =? 0 then Some [] else match upto0 r with None => None | Some s => Some (c :: s) end
  end.
Definition cstr_at (m : bytes) (pos : Z) : option bytes := if (0 <=? pos) && (pos <=? zlen m) then upto0 (skipn (Z.to_nat pos) m) else None.
(** strstr(3) on texts: offset of the first match *)
Fixpoint is_prefix (p s : bytes) : bool :=
  match p, s with
  | [], _ => true
  | a :: p', b :: s' => (a =? b) && is_prefix p' s'
  | _, _ => false
  end.
Fixpoint strstr (s p : bytes) (i : Z) : option Z :=
  if is_prefix p s then Some i else match s with [] => None | _ :: r => strstr r p (i + 1) end.

(** ** Header: oonf_http.c:639-804 [_parse_http_header] *)
Inductive lres := LFault | LErr | LOk (written rest : bytes) (pos len : Z) (uri version : option Z).
Definition lpush (l : bytes) (r : lres) : lres :=
  match r with LOk w rest pos len u v => LOk (l ++ w) rest pos len u v | _ => r end.
(** lines 646-674: the request line *)
Fixpoint req_line (rest : bytes) (pos len : Z) (uri version : option Z) : lres :=
  if len <? 2 then LErr else
  match rest with
  | [] => LFault
  | c :: r =>
    if (c =? 32) && match version with None => true | _ => false end then
      match uri with
      | None => lpush [0] (req_line r (pos + 1) (len - 1) (Some (pos + 1)) version)
      | Some _ => lpush [0] (req_line r (pos + 1) (len - 1) uri (Some (pos + 1)))
      end
    else if c =? 13 then lpush [0] (req_line r (pos + 1) (len - 1) uri version)
    else if c =? 10 then LOk [0] r (pos + 1) (len - 1) uri version
    else lpush [c] (req_line r (pos + 1) (len - 1) uri version)
  end.
(** lines 699-720: a field name *)
Inductive nres := NFault | NErr | NOk (written rest : bytes) (pos len : Z).
Definition npush (l : bytes) (r : nres) : nres := match r with NOk w rest pos len => NOk (l ++ w) rest pos len | _ => r end.
Fixpoint field_name (rest : bytes) (pos len : Z) : nres :=
  if len <? 1 then NErr else
  match rest with
  | [] => NFault
  | c :: r =>
    if c =? 58 then NOk [0] r (pos + 1) (len - 1)
    else if (c =? 32) || (c =? 9) then npush [0] (field_name r (pos + 1) (len - 1))
    else if (c =? 10) || (c =? 13) then NErr
    else npush [c] (field_name r (pos + 1) (len - 1))
  end.
(** lines 722-789: a field value *)
Inductive vres := VFault | VErr | VOk (written rest : bytes) (pos len value : Z).
Definition vpush (l : bytes) (r : vres) : vres := match r with VOk w rest pos len v => VOk (l ++ w) rest pos len v | _ => r end.
Definition tabsp (c : Z) : bool := (c =? 32) || (c =? 9).
Fixpoint field_value (rest : bytes) (pos len : Z) (value : option Z) : vres :=
  if len <? 1 then VErr else
  match rest with
  | [] => VFault
  | c :: r =>
    let value' := match value with None => if tabsp c then None else Some pos | _ => value end in
    (* lines 745-747, 775-777: never NULL here *)
    let final := match value' with None => pos | Some v => v end in
    if c =? 10 then
      if len <? 2 then VErr else
      match r with
      | [] => VFault
      | c1 :: r1 => if tabsp c1 then vpush [32; 32] (field_value r1 (pos + 2) (len - 2) value') else VOk [0] r (pos + 1) (len - 1) final
      end
    else if c =? 13 then
      if len <? 2 then VErr else
      match r with
      | [] => VFault
      | c1 :: r1 =>
        if c1 =? 10 then
          if len <? 3 then VErr else
          match r1 with
          | [] => VFault
          | c2 :: r2 => if tabsp c2 then vpush [32; 32; 32] (field_value r2 (pos + 3) (len - 3) value') else VOk [0; 10] r1 (pos + 2) (len - 2) final
          end
        else vpush [13] (field_value r (pos + 1) (len - 1) value')
      end
    else vpush [c] (field_value r (pos + 1) (len - 1) value')
  end.
(** lines 680-790: the fields; [n] more fields fit into the arrays *)
Inductive fres := FFault | FErr | FOk (written rest : bytes) (fields : list (Z * Z)).
Fixpoint fields (n : nat) (rest : bytes) (pos len : Z) : fres :=
  let field :=
    match n with
    | O => FErr
    | S n' =>
      match field_name rest pos len with
      | NFault => FFault
      | NErr => FErr
      | NOk w1 rest1 pos1 len1 =>
        match field_value rest1 pos1 len1 None with
        | VFault => FFault
        | VErr => FErr
        | VOk w2 rest2 pos2 len2 v =>
          match fields n' rest2 pos2 len2 with
          | FOk w rest' l => FOk (w1 ++ w2 ++ w) rest' ((pos, v) :: l)
          | r => r
          end
        end
      end
    end in
  match rest with
  | [] => FFault
  | c :: r =>
    if c =? 10 then FOk [] rest []
    else if c =? 13 then
      if len <? 2 then FErr
      else match r with [] => FFault | c1 :: _ => if c1 =? 10 then FOk [] rest [] else field end
    else field
  end.
(** oonf_http.h:64-77 *)
Definition MAX_HEADERS : nat := 16.
Definition MAX_PARAMS : nat := 8.
Definition MAX_URI : Z := 256.
(** the whole header: the memory after it, the offsets of URI and version, and of names and values *)
Inductive hres := HFault | HErr | HOk (mem : bytes) (uri version : Z) (fs : list (Z * Z)).
Definition parse_http_header (inp : bytes) : hres :=
  match req_line (inp ++ [0]) 0 (zlen inp) None None with
  | LFault => HFault
  | LErr => HErr
  | LOk w rest pos len uri version =>
    match uri, version with
    | Some u, Some v =>
      match fields MAX_HEADERS rest pos len with
      | FFault => HFault
      | FErr => HErr
      | FOk w' rest' fs => HOk (w ++ w' ++ rest') u v fs
      end
    | _, _ => HErr
    end
  end.

(** ** Parameters: oonf_http.c:816-844 [_parse_query_string] on the text [s]; the
    text with zeros written into it, names and values.  [fuel] more than the
    length is enough (lemma [query_total]) *)
Fixpoint query (fuel : nat) (s : bytes) (count : nat) : option (bytes * list (bytes * bytes)) :=
  match fuel with
  | O => None
  | S f =>
    match count with
    | O => Some (s, [])
    | S count' =>
      let seg := take_while (fun c => negb (c =? 38)) s in
      let rest := drop_while (fun c => negb (c =? 38)) s in
      let n := take_while (fun c => negb (c =? 61)) seg in
      let v := drop_while (fun c => negb (c =? 61)) seg in
      let seg' := match v with [] => seg | _ :: v' => n ++ 0 :: v' end in
      let ps := match n with [] => [] | _ => [(n, tl v)] end in
      match rest with
      | [] => Some (seg', ps)
      | _ :: r =>
        match query f r (match n with [] => count | _ => count' end) with
        | None => None
        | Some (m, l) => Some (seg' ++ 0 :: m, ps ++ l)
        end
      end
    end
  end.
Definition parse_query (s : bytes) : option (bytes * list (bytes * bytes)) := query (S (length s)) s MAX_PARAMS.

(** ** oonf_http.c:851-869 [_decode_uri] *)
Definition hexdig (c : Z) : option Z :=
  if isdigit c then Some (c - 48) else if (65 <=? c) && (c <=? 70) then Some (c - 55) else if (97 <=? c) && (c <=? 102) then Some (c - 87) else None.
(** sscanf(s, "%02x", &value) with value 0 before: white space is skipped, at most
    two characters are read: sign and digit, or digits; [0x] is 0 *)
Definition scan2 (s : bytes) : Z :=
  match drop_while isspace s with
  | [] => 0
  | a :: r =>
    let second := match r with b :: _ => hexdig b | [] => None end in
    if a =? 45 then match second with Some b => - b | None => 0 end
    else if a =? 43 then match second with Some b => b | None => 0 end
    else match hexdig a with
         | None => 0
         | Some x => match second with Some b => 16 * x + b | None => x end
         end
  end.
Fixpoint decode (s : bytes) : bytes :=
  match s with
  | [] => []
  | c :: r =>
    match r with
    | a :: (b :: r') => if c =? 37 then u8 (scan2 r) :: decode r' else c :: decode r
    | _ => c :: decode r
    end
  end.
(** the text is decoded in its own memory; the write pointer never passes the read pointer *)
Definition overlay (m s : bytes) : bytes := s ++ 0 :: skipn (S (length s)) m.

(** ** Sites *)
(** oonf_http.h:136-169; [h_acl]: netaddr_acl_check_accept for the remote address (C27) *)
Record handler := { h_site : bytes; h_content : option bytes; h_acl : bool; h_auth : list bytes }.
(** oonf_http.c:247 *)
Definition directory (h : handler) : bool := match rev (h_site h) with c :: _ => c =? 47 | [] => false end.
(** strncasecmp(a, b, n) == 0 on texts *)
Definition case_prefix (a b : bytes) (n : Z) : bool := strcase_eqb (firstn (Z.to_nat n) a) (firstn (Z.to_nat n) b).
(** avl_find_element, avl_find_le_element, avl_find_ge_element of the tree, a list
    sorted by the comparator (C01-C04) *)
Definition site_eq (l : list handler) (uri : bytes) : option handler := find (fun h => strcasecmp (h_site h) uri =? 0) l.
Definition site_le (l : list handler) (uri : bytes) : option handler := find (fun h => strcasecmp (h_site h) uri <=? 0) (rev l).
Definition site_ge (l : list handler) (uri : bytes) : option handler := find (fun h => 0 <=? strcasecmp (h_site h) uri) l.
(** oonf_http.c:504-538 [_get_site_handler] *)
Definition get_site_handler (l : list handler) (uri : bytes) : option handler :=
  match site_eq l uri with
  | Some h => Some h
  | None =>
    let shorter :=
      match site_le l uri with
      | Some h => if directory h && case_prefix (h_site h) uri (zlen (h_site h)) then Some h else None
      | None => None
      end in
    match shorter with
    | Some h => Some h
    | None =>
      match site_ge l uri with
      | None => None
      | Some h =>
        let n := zlen uri in
        if case_prefix (h_site h) uri n && match skipn (Z.to_nat n) (h_site h) with [c] => c =? 47 | _ => false end then Some h else None
      end
    end
  end.
(** oonf_http.c:274-284 [oonf_http_lookup_value] *)
Definition lookup (l : list (bytes * bytes)) (key : bytes) : option bytes :=
  option_map snd (find (fun p => str_eqb (fst p) key) l).
(** oonf_http.c:451-472 [_auth_okay] *)
Definition auth_okay (h : handler) (fs : list (bytes * bytes)) : bool :=
  match lookup fs (zs "Authorization") with
  | None => false
  | Some auth =>
    match hasnextword auth (zs "Basic") with
    | None => false
    | Some pw => existsb (fun a => str_eqb a pw) (h_auth h)
    end
  end.

(** ** oonf_http.c:291-434 [_cb_receive_data] *)
(** an answer: an error, static content, or a call of the content handler with the
    memory of the URI, the fields and the parameters *)
Inductive reply := Error (code : Z) | Static (h : handler) | Call (h : handler) (uri : bytes) (fs params : list (bytes * bytes)).
(** [Wait]: STREAM_SESSION_ACTIVE with the input buffer; [Done]: STREAM_SESSION_SEND_AND_QUIT *)
Inductive outcome := Fault | Wait (inp : bytes) | Done (r : reply).
Definition END1 : bytes := [13; 10; 13; 10].
Definition END2 : bytes := [10; 10].
(** lines 300-310: offset behind the header *)
Definition header_end (s : bytes) : option Z :=
  match strstr s END1 0 with
  | Some i => Some (i + 4)
  | None => match strstr s END2 0 with Some i => Some (i + 2) | None => None end
  end.
Fixpoint strings (m : bytes) (l : list (Z * Z)) : option (list (bytes * bytes)) :=
  match l with
  | [] => Some []
  | (n, v) :: r =>
    match cstr_at m n, cstr_at m v, strings m r with
    | Some a, Some b, Some l' => Some ((a, b) :: l')
    | _, _, _ => None
    end
  end.
(** lines 379-433: from the decoded URI on *)
Definition answer (sites : list handler) (uri : bytes) (fs params : list (bytes * bytes)) : outcome :=
  match cstr_at uri 0 with
  | None => Fault
  | Some u =>
    match get_site_handler sites u with
    | None => Done (Error 404)
    | Some h =>
      match h_content h with
      | Some _ => Done (Static h)
      | None =>
        if negb (h_acl h) then Done (Error 403)
        else if negb (match h_auth h with [] => true | _ => false end) && negb (auth_okay h fs) then Done (Error 401)
        else Done (Call h uri fs params)
      end
    end
  end.
(** lines 333-377; the array [uri] of 257 bytes is filled by strscpy, what was in it before does not matter *)
Definition process (sites : list handler) (inp mem : bytes) (first : Z) (method request_uri : bytes) (fs : list (bytes * bytes)) : outcome :=
  match strscpy (repeat 165 257) 0 (Some (request_uri ++ [0])) 257 with
  | None => Fault
  | Some uri =>
    let get := str_eqb method (zs "GET") in
    let post := str_eqb method (zs "POST") in
    (* lines 356-363 *)
    let t := take_while (fun c => negb (c =? 35)) request_uri in
    let decoded := overlay uri (decode t) in
    if post then
      match lookup fs (zs "Content-Length") with
      | None => Done (Error 400)
      | Some cl =>
        if zlen inp <? fst (strtoul10 cl) then Wait (removelast mem)
        else
          match cstr_at mem first with
          | None => Fault
          | Some body => match parse_query body with None => Fault | Some (_, ps) => answer sites decoded fs ps end
          end
      end
    else if get then
      match cstr_at decoded 0 with
      | None => Fault
      | Some u =>
        match drop_while (fun c => negb (c =? 63)) u with
        | [] => answer sites decoded fs []
        | _ :: q =>
          match parse_query q with
          | None => Fault
          | Some (q', ps) =>
            let path := take_while (fun c => negb (c =? 63)) u in
            answer sites (path ++ 0 :: q' ++ skipn (length path + 1 + length q) decoded) fs ps
          end
        end
      end
    else Done (Error 501)
  end.
Definition receive (sites : list handler) (inp : bytes) : outcome :=
  match header_end (text (inp ++ [0])) with
  | None => Wait inp
  | Some first =>
    match parse_http_header inp with
    | HFault => Fault
    | HErr => Done (Error 400)
    | HOk mem uri version fields =>
      match cstr_at mem 0, cstr_at mem uri, cstr_at mem version, strings mem fields with
      | Some m, Some u, Some v, Some fs =>
        if negb (str_eqb v (zs "HTTP/1.0")) && negb (str_eqb v (zs "HTTP/1.1")) then Done (Error 400)
        else if MAX_URI <=? zlen u then Done (Error 400)
        else process sites inp mem first m u fs
      | _, _, _, _ => Fault
      end
    end
  end.

(** ** Session: oonf_stream_socket.c:754-797 with the limit of oonf_http.c:163: data
    arrives in pieces; the end of the connection and timeouts are not modelled *)
Inductive sres := SFault | Waiting (inp : bytes) | Replied (r : reply).
Fixpoint session (sites : list handler) (inp : bytes) (pieces : list bytes) : sres :=
  match pieces with
  | [] => Waiting inp
  | p :: ps =>
    let inp' := inp ++ p in
    if 65536 <? zlen inp' then Replied (Error 413)
    else match receive sites inp' with
         | Fault => SFault
         | Wait inp'' => session sites inp'' ps
         | Done r => Replied r
         end
  end.

(** ** oonf_http.c:930-972 [_cb_file_handler] with an active directory: the path handed to openat, None: 404 *)
Inductive file_res := FileFault | FileNotFound | FileOpen (path : bytes).
Definition file_handler (uri : bytes) : file_res :=
  match cstr_at uri 0, cstr_at uri 5 with
  | Some u, Some file =>
    match strstr u (zs "/../") 0 with
    | Some _ => FileNotFound
    | None => match file with c :: _ => if c =? 47 then FileNotFound else FileOpen file | [] => FileOpen file end
    end
  | _, _ => FileFault
  end.
(** ** oonf_http.c:877-922 [_cb_telnet_handler]: the commands executed with their
    parameters; [exec] says which are accepted, a rejected one ends the loop *)
Fixpoint split_slash (s : bytes) : list bytes :=
  match s with
  | [] => [[]]
  | c :: r => if c =? 47 then [] :: split_slash r else match split_slash r with w :: l => (c :: w) :: l | [] => [[c]] end
  end.
Definition command (w : bytes) : bytes * bytes := (take_while (fun c => negb (c =? 32)) w, tl (drop_while (fun c => negb (c =? 32)) w)).
Fixpoint run_commands (exec : bytes -> bytes -> Z) (l : list bytes) : list (bytes * bytes) * Z :=
  match l with
  | [] => ([], 200)
  | w :: r => let c := command w in
              let code := exec (fst c) (snd c) in
              if code =? 200 then let '(cs, res) := run_commands exec r in (c :: cs, res) else ([c], code)
  end.
Definition telnet_handler (exec : bytes -> bytes -> Z) (uri : bytes) : option (list (bytes * bytes) * Z) :=
  match cstr_at uri 8 with
  | None => None
  | Some s => match strscpy (repeat 165 1024) 0 (Some (s ++ [0])) 1024 with
              | None => None
              | Some buf => Some (run_commands exec (split_slash (text buf)))
              end
  end.
