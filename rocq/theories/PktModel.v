(** Model of UDP sockets: src/base/oonf_packet_socket.c.

    Not modelled: opening and binding sockets (123-158, 518-726), receiving (774-806),
    the choice of the socket by the family of the destination (340-380).  The content
    of the output buffer is a list of bytes (autobuf.c: C32, C33); whether memory is
    available for each append is given with the operation.  What sendto() answers is
    given with the operation: the number of bytes, and errno (an old one when the
    number is not negative). *)
From Verif Require Import Base.

(** sizeof(union netaddr_socket), netaddr.h:118-130 (a sockaddr_storage) *)
Definition SOCKLEN : Z := 128.
Definition EPERM : Z := 1.
(** EINTR, EAGAIN = EWOULDBLOCK *)
Definition would_block (e : Z) : bool := (e =? 4) || (e =? 11).
Record answer := { a_res : Z; a_errno : Z }.
(** where to, what *)
Record packet := { p_to : bytes; p_data : bytes }.
(** which of the three appends finds memory *)
Record memory := { m_to : bool; m_len : bool; m_data : bool }.

(** oonf_packet_socket.h:97-134: output buffer, interest in write events, the
    members of the limit for warnings *)
Record sock := { s_out : bytes; s_write : bool; s_proto : Z; s_sup : bool; s_time : Z; s_count : Z }.
(** 165-190 [_packet_add]: the buffer and the begin of the measurement are set; the
    other members keep their values, a new structure is all zero *)
Definition packet_add (now : Z) (s : sock) : sock := {| s_out := []; s_write := false; s_proto := s_proto s; s_sup := s_sup s; s_time := now; s_count := s_count s |}.
Definition fresh (now : Z) : sock := packet_add now {| s_out := []; s_write := false; s_proto := 0; s_sup := false; s_time := 0; s_count := 0 |}.

(** a warning without or with the number of suppressed ones *)
Inductive warning := NoWarning | Plain | Suppressed (n : Z).
(** 458-513 [_handle_errno1] *)
Definition handle_errno1 (now : Z) (s : sock) : sock * warning :=
  let interval := s64 (- s64 (s_time s - now)) in
  let count := s_count s in
  let normalized := if 60000 <=? interval then u32 (Z.quot count (Z.quot interval 60000)) else count in
  let c1 := u32 (count + 1) in
  let '(sup, count, triggered) :=
    if (60000 <=? interval) && s_sup s && (normalized <? 5) then (false, count, false)
    else if negb (s_sup s) && (10 <? normalized) then (true, 0, true)
    else (s_sup s, count, false) in
  let '(time, c1) := if (60000 <=? interval) || triggered then (now, 1) else (s_time s, c1) in
  ({| s_out := s_out s; s_write := s_write s; s_proto := s_proto s; s_sup := sup; s_time := time; s_count := c1 |},
   if sup && negb (count =? 0) then (if 1 <? c1 then NoWarning else Suppressed count) else Plain).

(** uint16 in the order of the machine (autobuf.h:155-158); both directions are the
    same memcpy, little endian here *)
Definition le16 (n : Z) : bytes := [u8 n; u8 (n / 256)].
Definition le16_dec (l : bytes) : option Z := match l with [a; b] => Some (a + 256 * b) | _ => None end.

(** what an operation shows: the return value, the calls of sendto(), the warning *)
Record report := { r_result : Z; r_call : option (packet * answer); r_warn : warning }.

(** 218-258 [oonf_packet_send]; the results of the appends are ignored *)
Definition append (ok : bool) (d : bytes) (l : bytes) : bytes := if ok then l ++ d else l.
Definition enqueue (p : packet) (m : memory) (s : sock) : sock :=
  {| s_out := append (m_data m) (p_data p) (append (m_len m) (le16 (u16 (zlen (p_data p)))) (append (m_to m) (p_to p) (s_out s)));
     s_write := true; s_proto := s_proto s; s_sup := s_sup s; s_time := s_time s; s_count := s_count s |}.
Definition send (now : Z) (p : packet) (a : answer) (m : memory) (s : sock) : sock * report :=
  match s_out s with
  | [] =>
      if 0 <? a_res a then (s, {| r_result := 0; r_call := Some (p, a); r_warn := NoWarning |})
      else if a_errno a =? EPERM then
        let '(s', w) := handle_errno1 now s in (s', {| r_result := -1; r_call := Some (p, a); r_warn := w |})
      else if negb (would_block (a_errno a)) then (s, {| r_result := -1; r_call := Some (p, a); r_warn := Plain |})
      else (enqueue p m s, {| r_result := 0; r_call := Some (p, a); r_warn := NoWarning |})
  | _ => (enqueue p m s, {| r_result := 0; r_call := None; r_warn := NoWarning |})
  end.

(** 808-846 of [_cb_packet_event]: the socket can be written.  [None]: the packet
    reaches behind the end of the buffer. *)
Definition event (a : answer) (s : sock) : option (sock * report) :=
  let idle := {| s_out := s_out s; s_write := false; s_proto := s_proto s; s_sup := s_sup s; s_time := s_time s; s_count := s_count s |} in
  if zlen (s_out s) =? 0 then Some (idle, {| r_result := 0; r_call := None; r_warn := NoWarning |})
  else
    if zlen (s_out s) <? SOCKLEN + 2 then None else
    let to := firstn (Z.to_nat SOCKLEN) (s_out s) in
    let r := skipn (Z.to_nat SOCKLEN) (s_out s) in
    match le16_dec (firstn 2 r) with
    | None => None
    | Some n =>
        let r := skipn 2 r in
        if zlen r <? n then None else
        let p := {| p_to := to; p_data := firstn (Z.to_nat n) r |} in
        if (a_res a <? 0) && would_block (a_errno a) then Some (s, {| r_result := 0; r_call := Some (p, a); r_warn := NoWarning |})
        else
          let out := skipn (Z.to_nat n) r in
          Some ({| s_out := out; s_write := (if zlen out =? 0 then false else s_write s); s_proto := s_proto s; s_sup := s_sup s; s_time := s_time s; s_count := s_count s |},
                {| r_result := 0; r_call := Some (p, a); r_warn := if a_res a <? 0 then Plain else NoWarning |})
    end.

(** how the socket is opened: os_fd_getsocket() for UDP, os_fd_getrawsocket() with a
    protocol *)
Inductive opening := Udp | Raw (protocol : Z).
(** 132-141 [oonf_packet_add]: the member "protocol" is not set.  153-163
    [oonf_packet_raw_add]: the third argument of os_fd_getrawsocket() is the protocol
    (os_fd.h:103-104), it is false, that is 0. *)
Definition add_udp (now : Z) (s : sock) : sock * opening := (packet_add now s, Udp).
Definition add_raw (now protocol : Z) (s : sock) : sock * opening :=
  let s := packet_add now s in
  ({| s_out := s_out s; s_write := s_write s; s_proto := protocol; s_sup := s_sup s; s_time := s_time s; s_count := s_count s |}, Raw 0).
(** 665-727 [_apply_managed_socket] of an open socket on an interface that is up:
    [same]: address and interface are those of before.  198-208 [oonf_packet_remove]
    drops the buffer. *)
Definition apply (now : Z) (same : bool) (protocol : Z) (s : sock) : sock * option opening :=
  if same && (protocol =? s_proto s) then (s, None)
  else let '(s', o) := if negb (protocol =? 0) then add_raw now protocol s else add_udp now s in (s', Some o).
(** 783-792 of [_cb_packet_event]: is the begin of a received packet skipped as an IP
    header? *)
Definition skips_header (s : sock) : bool := negb (s_proto s =? 0).

Inductive op := Send (now : Z) (p : packet) (a : answer) (m : memory) | Writable (a : answer) | Apply (now : Z) (same : bool) (protocol : Z).
Definition step (o : op) (s : sock) : option (sock * report) :=
  match o with
  | Send now p a m => Some (send now p a m s)
  | Writable a => event a s
  | Apply now same protocol => Some (fst (apply now same protocol s), {| r_result := 0; r_call := None; r_warn := NoWarning |})
  end.
(** operations with what they show *)
Fixpoint run (os : list op) (s : sock) : option (sock * list (op * report)) :=
  match os with
  | [] => Some (s, [])
  | o :: r =>
      match step o s with
      | None => None
      | Some (s', t) => match run r s' with None => None | Some (s2, ts) => Some (s2, (o, t) :: ts) end
      end
  end.
