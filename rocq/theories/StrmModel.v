(** Model of TCP sockets and their sessions: src/base/oonf_stream_socket.c, with the
    cleanup callback of the HTTP server (src/base/oonf_http.c:440-443).

    What the operating system and the callbacks of the application answer is part of
    the operations.  Not modelled: managed sockets (332-450, 475-560), failures to open
    a descriptor (165, 276, 582), callbacks that set the timeout, callbacks that remove
    the socket with force, the scheduler; buffers are lists of bytes (autobuf.c: C32,
    C33).  The callback receive_data is set, buffer_underrun need not be.  A session is
    known by a number. *)
From Verif Require Import Base.

(** oonf_stream_socket.h:66-79 *)
Inductive state := Active | SendAndQuit | Cleanup.
Definition state_eqb (a b : state) : bool :=
  match a, b with Active, Active | SendAndQuit, SendAndQuit | Cleanup, Cleanup => true | _, _ => false end.

(** oonf_stream_socket.h:99-160 [struct oonf_stream_session]; [x_fd]: descriptor of
    the connection; [x_copy]: descriptor of the file, [x_file]: what is left to copy
    of it (os_fd_is_initialized(), copy_bytes_sent to copy_total_size); [x_due]: when
    the timer fires; [x_write], [x_read]: interest in events *)
Record session := { x_fd : Z; x_copy : Z; x_in : bytes; x_out : bytes; x_file : option bytes; x_state : state;
                    x_wait : bool; x_first : bool; x_write : bool; x_read : bool; x_due : option Z }.
(** oonf_stream_socket.h:165-238 [struct oonf_stream_config]; [c_http]: the callback
    cleanup_session is that of the HTTP server *)
Record config := { c_allowed : Z; c_timeout : Z; c_max : Z; c_first : bool; c_http : bool }.

(** what a callback does: it takes bytes from the begin of the input, appends output,
    attaches a file (descriptor and content), calls oonf_stream_close() for this session
    and oonf_stream_remove() without force for the socket, returns a state *)
Record reaction := { c_take : Z; c_out : bytes; c_file : option (Z * bytes); c_close : bool; c_remove : bool; c_state : state }.
Inductive received := Data (d : bytes) | Eof | Again | Failed.
(** an event of a session: what the scheduler reports, the answers of
    getsockopt(SO_ERROR) (0: connected), recv(), the allocation, what create_error
    writes, receive_data at the end of the stream and otherwise, send() (number of
    bytes, negative: error, that may mean "later"), sendfile(), buffer_underrun *)
Record io := { i_now : Z; i_read : bool; i_write : bool; i_conn : Z; i_recv : received; i_mem : bool; i_error : bytes;
               i_eof : reaction; i_data : reaction; i_send : Z; i_later : bool; i_copied : Z; i_under : option reaction }.

(** oonf_timer_set / oonf_timer_start with 0: no timer (C13) *)
Definition timer_set (now i : Z) : option Z := if i =? 0 then None else Some (now + i).

Definition with_state (x : session) (st : state) : session :=
  {| x_fd := x_fd x; x_copy := x_copy x; x_in := x_in x; x_out := x_out x; x_file := x_file x; x_state := st; x_wait := x_wait x; x_first := x_first x; x_write := x_write x; x_read := x_read x; x_due := x_due x |}.
Definition with_out (x : session) (o : bytes) : session :=
  {| x_fd := x_fd x; x_copy := x_copy x; x_in := x_in x; x_out := o; x_file := x_file x; x_state := x_state x; x_wait := x_wait x; x_first := x_first x; x_write := x_write x; x_read := x_read x; x_due := x_due x |}.
Definition with_in (x : session) (i : bytes) : session :=
  {| x_fd := x_fd x; x_copy := x_copy x; x_in := i; x_out := x_out x; x_file := x_file x; x_state := x_state x; x_wait := x_wait x; x_first := x_first x; x_write := x_write x; x_read := x_read x; x_due := x_due x |}.
Definition with_file (x : session) (fd : Z) (f : option bytes) : session :=
  {| x_fd := x_fd x; x_copy := fd; x_in := x_in x; x_out := x_out x; x_file := f; x_state := x_state x; x_wait := x_wait x; x_first := x_first x; x_write := x_write x; x_read := x_read x; x_due := x_due x |}.
Definition with_wait (x : session) (b : bool) : session :=
  {| x_fd := x_fd x; x_copy := x_copy x; x_in := x_in x; x_out := x_out x; x_file := x_file x; x_state := x_state x; x_wait := b; x_first := x_first x; x_write := x_write x; x_read := x_read x; x_due := x_due x |}.
Definition with_write (x : session) (b : bool) : session :=
  {| x_fd := x_fd x; x_copy := x_copy x; x_in := x_in x; x_out := x_out x; x_file := x_file x; x_state := x_state x; x_wait := x_wait x; x_first := x_first x; x_write := b; x_read := x_read x; x_due := x_due x |}.
Definition no_read (x : session) : session :=
  {| x_fd := x_fd x; x_copy := x_copy x; x_in := x_in x; x_out := x_out x; x_file := x_file x; x_state := x_state x; x_wait := x_wait x; x_first := x_first x; x_write := x_write x; x_read := false; x_due := x_due x |}.
Definition not_first (x : session) : session :=
  {| x_fd := x_fd x; x_copy := x_copy x; x_in := x_in x; x_out := x_out x; x_file := x_file x; x_state := x_state x; x_wait := x_wait x; x_first := false; x_write := x_write x; x_read := x_read x; x_due := x_due x |}.
Definition with_due (x : session) (d : option Z) : session :=
  {| x_fd := x_fd x; x_copy := x_copy x; x_in := x_in x; x_out := x_out x; x_file := x_file x; x_state := x_state x; x_wait := x_wait x; x_first := x_first x; x_write := x_write x; x_read := x_read x; x_due := d |}.

(** a session in its event: written by the application, sent to the peer from the
    buffer and from the file, the flag "removed", removal of the socket asked for *)
Record work := { w_x : session; w_written : bytes; w_sent : bytes; w_copied : bytes; w_close : bool; w_remove : bool }.
Definition upd (w : work) (x : session) : work := {| w_x := x; w_written := w_written w; w_sent := w_sent w; w_copied := w_copied w; w_close := w_close w; w_remove := w_remove w |}.
(** a callback is called and its state taken over *)
Definition react (r : reaction) (w : work) : work :=
  let x := w_x w in
  let x := with_in x (skipn (Z.to_nat (c_take r)) (x_in x)) in
  let x := with_out x (x_out x ++ c_out r) in
  let x := match c_file r with Some (fd, d) => with_file x fd (Some d) | None => x end in
  {| w_x := with_state x (c_state r); w_written := w_written w ++ c_out r; w_sent := w_sent w; w_copied := w_copied w; w_close := w_close w || c_close r; w_remove := w_remove w || c_remove r |}.

(** 722-745: waiting for the connection *)
Definition ev_connect (e : io) (x : session) : session :=
  if x_wait x && i_write e then (if i_conn e =? 0 then with_wait x false else with_state x Cleanup) else x.
(** 753-791: reading *)
Definition ev_read (c : config) (e : io) (w : work) : work :=
  let x := w_x w in
  if state_eqb (x_state x) Active && i_read e then
    match i_recv e with
    | Data d =>
        if negb (i_mem e) then upd w (with_state x Cleanup)
        else
          let x := with_in x (x_in x ++ d) in
          if c_max c <? zlen (x_in x) then
            {| w_x := with_state (with_out x (x_out x ++ i_error e)) SendAndQuit; w_written := w_written w ++ i_error e; w_sent := w_sent w; w_copied := w_copied w; w_close := w_close w; w_remove := w_remove w |}
          else upd w (with_due x (timer_set (i_now e) (c_timeout c)))
    | Failed => upd w (with_state x Cleanup)
    | Again => w
    | Eof => let w := react (i_eof e) (upd w (with_state x SendAndQuit)) in upd w (no_read (w_x w))
    end
  else w.
(** 793-797: input for the application *)
Definition ev_data (e : io) (w : work) : work :=
  let x := w_x w in
  if state_eqb (x_state x) Active && ((0 <? zlen (x_in x)) || x_first x) then let w := react (i_data e) w in upd w (not_first (w_x w)) else w.
(** 799-819: sending *)
Definition ev_send (c : config) (e : io) (w : work) : work :=
  let x := w_x w in
  if negb (state_eqb (x_state x) Cleanup) && (0 <? zlen (x_out x)) then
    if i_write e then
      if 0 <? i_send e then
        {| w_x := with_due (with_out x (skipn (Z.to_nat (i_send e)) (x_out x))) (timer_set (i_now e) (c_timeout c)); w_written := w_written w;
           w_sent := w_sent w ++ firstn (Z.to_nat (i_send e)) (x_out x); w_copied := w_copied w; w_close := w_close w; w_remove := w_remove w |}
      else if (i_send e <? 0) && negb (i_later e) then upd w (with_state x Cleanup) else w
    else upd w (with_write x true)
  else w.
(** 821-836: sending a file *)
Definition ev_file (e : io) (w : work) : work :=
  let x := w_x w in
  match x_file x with
  | Some f =>
      if state_eqb (x_state x) SendAndQuit && (zlen (x_out x) =? 0) && i_write e then
        if i_copied e <=? 0 then upd w (with_state x Cleanup)
        else {| w_x := with_file x (x_copy x) (Some (skipn (Z.to_nat (i_copied e)) f)); w_written := w_written w;
                w_sent := w_sent w; w_copied := w_copied w ++ firstn (Z.to_nat (i_copied e)) f; w_close := w_close w; w_remove := w_remove w |}
      else w
  | None => w
  end.
(** 838-842: underrun *)
Definition ev_under (e : io) (w : work) : work :=
  let x := w_x w in
  if state_eqb (x_state x) Active && (zlen (x_out x) =? 0) then match i_under e with Some r => react r w | None => w end else w.
(** 844-851: everything is sent *)
Definition ev_done (w : work) : work :=
  let x := w_x w in
  if (zlen (x_out x) =? 0) && match x_file x with Some (_ :: _) => false | _ => true end then
    let x := with_write x false in upd w (if state_eqb (x_state x) SendAndQuit then with_state x Cleanup else x)
  else w.
(** 706-871 [_cb_parse_connection]; [None]: still waiting for the connection *)
Definition start (x : session) : work := {| w_x := x; w_written := []; w_sent := []; w_copied := []; w_close := false; w_remove := false |}.
Definition parse_connection (c : config) (e : io) (x : session) : session * option work :=
  let x := ev_connect e x in
  if x_wait x then (x, None)
  else (x, Some (ev_done (ev_under e (ev_file e (ev_send c e (ev_data e (ev_read c e (start x)))))))).

(** oonf_stream_socket.h:244-277 [struct oonf_stream_socket]: [k_live]: in the list of
    sockets; [k_fd]: descriptor of the server socket, 0 in zeroed memory;
    [k_freed]: sessions whose memory was freed while scheduler and timer know them *)
Record sock := { k_live : bool; k_fd : Z; k_counter : Z; k_sess : list (Z * session); k_freed : list Z; k_remove : bool }.
Definition fresh : sock := {| k_live := false; k_fd := 0; k_counter := 0; k_sess := []; k_freed := []; k_remove := false |}.
Definition with_sess (s : sock) (l : list (Z * session)) : sock := {| k_live := k_live s; k_fd := k_fd s; k_counter := k_counter s; k_sess := l; k_freed := k_freed s; k_remove := k_remove s |}.
Fixpoint get (id : Z) (l : list (Z * session)) : option session := match l with [] => None | (i, x) :: r => if i =? id then Some x else get id r end.
Fixpoint put (id : Z) (x : session) (l : list (Z * session)) : list (Z * session) := match l with [] => [] | (i, y) :: r => if i =? id then (i, x) :: r else (i, y) :: put id x r end.
Fixpoint del (id : Z) (l : list (Z * session)) : list (Z * session) := match l with [] => [] | (i, y) :: r => if i =? id then r else (i, y) :: del id r end.

(** what an operation shows: descriptors opened, closed (in this order); a session
    was rejected; the session it is about: bytes written by the application, sent from the
    buffer, sent from the file *)
Record report := { r_opened : list Z; r_closed : list Z; r_rejected : bool; r_failed_init : bool; r_written : bytes; r_sent : bytes; r_copied : bytes }.
Definition nothing : report := {| r_opened := []; r_closed := []; r_rejected := false; r_failed_init := false; r_written := []; r_sent := []; r_copied := [] |}.
Definition closing (l : list Z) : report := {| r_opened := []; r_closed := l; r_rejected := false; r_failed_init := false; r_written := []; r_sent := []; r_copied := [] |}.
(** os_fd_linux.h:289-297 [os_fd_close] *)
Definition fd_close (fd : Z) : list Z := if fd =? -1 then [] else [fd].

(** oonf_http.c:440-443, oonf_stream_socket.c:456-473 [_stream_close] *)
Definition stream_close (c : config) (id : Z) (x : session) (s : sock) : sock * list Z :=
  ({| k_live := k_live s; k_fd := k_fd s; k_counter := k_counter s - 1; k_sess := del id (k_sess s); k_freed := k_freed s; k_remove := k_remove s |},
   (if c_http c then fd_close (x_copy x) else []) ++ fd_close (x_fd x)).
(** 240-254 [oonf_stream_close_all_sessions] *)
Fixpoint close_all (c : config) (l : list (Z * session)) (s : sock) : sock * list Z :=
  match l with
  | [] => (s, [])
  | (id, x) :: r =>
      if zlen (x_out x) =? 0 then let '(s1, f1) := stream_close c id x s in let '(s2, f2) := close_all c r s1 in (s2, f1 ++ f2)
      else close_all c r s
  end.
(** 213-232 [oonf_stream_remove] while the socket is not busy *)
Definition remove (c : config) (s : sock) : sock * list Z :=
  if negb (k_live s) then (s, [])
  else
    let '(s1, f) := close_all c (k_sess s) s in
    ({| k_live := false; k_fd := -1; k_counter := k_counter s1; k_sess := k_sess s1; k_freed := k_freed s1; k_remove := k_remove s1 |}, f ++ fd_close (k_fd s1)).

(** 159-204 [oonf_stream_add]: a server socket (what listen() says), a socket for
    outgoing connections.  The list of sessions is initialised (195): not modelled when
    sessions of the time before are left. *)
Definition add_server (fd : Z) (listen : bool) (s : sock) : sock * report :=
  if listen then ({| k_live := true; k_fd := fd; k_counter := k_counter s; k_sess := []; k_freed := k_freed s; k_remove := k_remove s |},
                  {| r_opened := [fd]; r_closed := []; r_rejected := false; r_failed_init := false; r_written := []; r_sent := []; r_copied := [] |})
  else ({| k_live := k_live s; k_fd := -1; k_counter := k_counter s; k_sess := k_sess s; k_freed := k_freed s; k_remove := k_remove s |},
        {| r_opened := [fd]; r_closed := [fd]; r_rejected := false; r_failed_init := false; r_written := []; r_sent := []; r_copied := [] |}).
Definition add_client (s : sock) : sock := {| k_live := true; k_fd := k_fd s; k_counter := k_counter s; k_sess := []; k_freed := k_freed s; k_remove := k_remove s |}.

(** how a session is made: no memory or no nonblocking mode; what init_session says *)
Inductive making := NoSession | Made (init : bool).
(** 607-687 [_create_session]; [wait]: set by the caller (298) *)
Definition create_session (c : config) (now id fd : Z) (wait : bool) (err : bytes) (m : making) (s : sock) : sock * report :=
  let rep rej failed w := {| r_opened := [fd]; r_closed := []; r_rejected := rej; r_failed_init := failed; r_written := w; r_sent := []; r_copied := [] |} in
  match m with
  | NoSession => (s, rep false false [])
  | Made init =>
      let ok := k_counter s <? c_allowed c in
      let x := {| x_fd := fd; x_copy := 0; x_in := []; x_out := (if ok then [] else err); x_file := None; x_state := (if ok then Active else SendAndQuit);
                  x_wait := wait; x_first := c_first c; x_write := true; x_read := true; x_due := timer_set now (c_timeout c) |} in
      let counter := if ok then k_counter s + 1 else k_counter s in
      if init then
        ({| k_live := k_live s; k_fd := k_fd s; k_counter := counter; k_sess := k_sess s ++ [(id, x)]; k_freed := k_freed s; k_remove := k_remove s |}, rep (negb ok) false (x_out x))
      else
        ({| k_live := k_live s; k_fd := k_fd s; k_counter := counter; k_sess := k_sess s; k_freed := id :: k_freed s; k_remove := k_remove s |}, rep (negb ok) true [])
  end.

Inductive op :=
| AddServer (fd : Z) (listen : bool)
| AddClient
| Accept (now id fd : Z) (acl : bool) (err : bytes) (m : making)
| ConnectTo (now id fd : Z) (answer : Z) (err : bytes) (m : making)
| Event (id : Z) (e : io)
| Timer (id now : Z)
| Close (id : Z)
| Write (id : Z) (d : bytes)
| Remove (force : bool).
Definition EINPROGRESS : Z := 115.
(** [None]: use of freed memory (or not modelled: [add_server]) *)
Definition step (c : config) (o : op) (s : sock) : option (sock * report) :=
  match o with
  | AddServer fd l => if zlen (k_sess s) =? 0 then Some (add_server fd l s) else None
  | AddClient => if zlen (k_sess s) =? 0 then Some (add_client s, nothing) else None
  (* 567-597 [_cb_parse_request] *)
  | Accept now id fd acl err m =>
      if acl then Some (create_session c now id fd false err m s)
      else Some (s, {| r_opened := [fd]; r_closed := [fd]; r_rejected := false; r_failed_init := false; r_written := []; r_sent := []; r_copied := [] |})
  (* 263-306 [oonf_stream_connect_to]; answer: 0 or errno of connect().  After an
     error the descriptor of the server socket is closed. *)
  | ConnectTo now id fd answer err m =>
      let failed s := ({| k_live := k_live s; k_fd := -1; k_counter := k_counter s; k_sess := k_sess s; k_freed := k_freed s; k_remove := k_remove s |}, fd_close (k_fd s)) in
      if (answer =? 0) || (answer =? EINPROGRESS) then
        let '(s1, r) := create_session c now id fd (negb (answer =? 0)) err m s in
        match m with
        | Made true => Some (s1, r)
        | _ => let '(s2, f) := failed s1 in Some (s2, {| r_opened := [fd]; r_closed := f; r_rejected := r_rejected r; r_failed_init := r_failed_init r; r_written := r_written r; r_sent := []; r_copied := [] |})
        end
      else let '(s2, f) := failed s in Some (s2, {| r_opened := [fd]; r_closed := f; r_rejected := false; r_failed_init := false; r_written := []; r_sent := []; r_copied := [] |})
  | Event id e =>
      if existsb (Z.eqb id) (k_freed s) then None else
      match get id (k_sess s) with
      | None => Some (s, nothing)
      | Some x =>
          match parse_connection c e x with
          | (x', None) => Some (with_sess s (put id x' (k_sess s)), nothing)
          | (_, Some w) =>
              let s := with_sess s (put id (w_x w) (k_sess s)) in
              let s := {| k_live := k_live s; k_fd := k_fd s; k_counter := k_counter s; k_sess := k_sess s; k_freed := k_freed s; k_remove := k_remove s || w_remove w |} in
              let '(s, f1) := if state_eqb (x_state (w_x w)) Cleanup || w_close w then stream_close c id (w_x w) s else (s, []) in
              let '(s, f2) := if k_remove s then remove c s else (s, []) in
              Some (s, {| r_opened := []; r_closed := f1 ++ f2; r_rejected := false; r_failed_init := false; r_written := w_written w; r_sent := w_sent w; r_copied := w_copied w |})
          end
      end
  (* 694-699 [_cb_timeout_handler] *)
  | Timer id now =>
      if existsb (Z.eqb id) (k_freed s) then None else
      match get id (k_sess s) with
      | Some x => match x_due x with Some d => if d <=? now then let '(s', f) := stream_close c id x s in Some (s', closing f) else Some (s, nothing) | None => Some (s, nothing) end
      | None => Some (s, nothing)
      end
  (* 323-330 [oonf_stream_close] outside of an event *)
  | Close id => match get id (k_sess s) with Some x => let '(s', f) := stream_close c id x s in Some (s', closing f) | None => Some (s, nothing) end
  (* the application appends output and calls 146-148 [oonf_stream_flush] *)
  | Write id d =>
      match get id (k_sess s) with
      | Some x => Some (with_sess s (put id (with_write (with_out x (x_out x ++ d)) true) (k_sess s)),
                        {| r_opened := []; r_closed := []; r_rejected := false; r_failed_init := false; r_written := d; r_sent := []; r_copied := [] |})
      | None => Some (s, nothing)
      end
  | Remove force => let '(s', f) := remove c s in Some (s', closing f)
  end.
Fixpoint run (c : config) (os : list op) (s : sock) : option (sock * list (op * report)) :=
  match os with
  | [] => Some (s, [])
  | o :: r =>
      match step c o s with
      | None => None
      | Some (s', t) => match run c r s' with None => None | Some (s2, ts) => Some (s2, (o, t) :: ts) end
      end
  end.
