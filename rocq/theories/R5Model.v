(** Model of the interfaces and targets of RFC 5444 protocols: src/base/oonf_rfc5444.c, with
    the packet buffers of src/librfc5444/rfc5444_pkt_generator.c as far as they decide when a packet
    leaves and which sequence number it carries.

    Simplifications:
    - One protocol, which its users keep until the end (its reference count is left out).
    - Objects are identified by numbers that are never reused; following a pointer to a freed
      object is the outcome [Bad].  The tree of unicast targets and the two multicast targets of
      an interface are the targets of the global list that point to it.
    - Allocation and the random number generator do not fail; [s_rnd] gives the random number drawn for
      an object.
    - Sockets are left out (PktModel.v): whether they changed is an argument.
    - A running timer is its absolute due time.  Bytes of messages are left out. *)
From Verif Require Import Base.

Inductive kind := Uni | M4 | M6.
Definition kind_eqb (a b : kind) : bool := match a, b with Uni, Uni | M4, M4 | M6, M6 => true | _, _ => false end.
(** include/oonf/base/oonf_rfc5444.h:235-262 [struct oonf_rfc5444_target]; [t_open]: the packet that
    is being filled, with its sequence number; [t_wait]: the messages in it with the time they came *)
Record tgt := { t_id : Z; t_if : Z; t_dst : Z; t_kind : kind; t_ref : Z; t_seq : Z; t_need : Z;
                t_open : option (option Z); t_wait : list (Z * Z); t_timer : option Z }.
(** the configuration of a section, src/base/oonf_rfc5444.c:82-88: it has no ports; multicast addresses
    may be missing *)
Record conf := { c_raw : bool; c_m4 : option Z; c_m6 : option Z; c_agg : Z }.
(** oonf_rfc5444.h:173-212 [struct oonf_rfc5444_interface] *)
Record itf := { i_id : Z; i_name : Z; i_ref : Z; i_lis : list Z; i_agg : Z; i_over : Z; i_set : bool;
                i_raw : bool; i_port : Z; i_mport : Z; i_m4 : option Z; i_m6 : option Z }.
(** [s_lis]: the listeners that exist *)
Record st := { s_port : Z; s_fixed : bool; s_seq : Z; s_need : Z; s_now : Z; s_next : Z; s_rnd : Z -> Z;
               s_lis : list Z; s_ifs : list itf; s_ts : list tgt }.

Inductive fault := F_if (i : Z) | F_tgt (t : Z) | F_lis (l : Z) | F_config.
Inductive res (A : Type) := Ok (a : A) | Bad (f : fault).
Arguments Ok {A} _.
Arguments Bad {A} _.
Definition rbind {A B} (x : res A) (f : A -> res B) : res B := match x with Ok a => f a | Bad e => Bad e end.
Notation "'do' x <- a ; b" := (rbind a (fun x => b)) (at level 200, x name, a at level 100, b at level 200).

Definition set_ifs (s : st) (x : list itf) : st :=
  {| s_port := s_port s; s_fixed := s_fixed s; s_seq := s_seq s; s_need := s_need s; s_now := s_now s; s_next := s_next s;
     s_rnd := s_rnd s; s_lis := s_lis s; s_ifs := x; s_ts := s_ts s |}.
Definition set_ts (s : st) (x : list tgt) : st :=
  {| s_port := s_port s; s_fixed := s_fixed s; s_seq := s_seq s; s_need := s_need s; s_now := s_now s; s_next := s_next s;
     s_rnd := s_rnd s; s_lis := s_lis s; s_ifs := s_ifs s; s_ts := x |}.
Definition set_lis (s : st) (x : list Z) : st :=
  {| s_port := s_port s; s_fixed := s_fixed s; s_seq := s_seq s; s_need := s_need s; s_now := s_now s; s_next := s_next s;
     s_rnd := s_rnd s; s_lis := x; s_ifs := s_ifs s; s_ts := s_ts s |}.
Definition set_next (s : st) (x : Z) : st :=
  {| s_port := s_port s; s_fixed := s_fixed s; s_seq := s_seq s; s_need := s_need s; s_now := s_now s; s_next := x;
     s_rnd := s_rnd s; s_lis := s_lis s; s_ifs := s_ifs s; s_ts := s_ts s |}.
Definition set_seq (s : st) (x : Z) : st :=
  {| s_port := s_port s; s_fixed := s_fixed s; s_seq := x; s_need := s_need s; s_now := s_now s; s_next := s_next s;
     s_rnd := s_rnd s; s_lis := s_lis s; s_ifs := s_ifs s; s_ts := s_ts s |}.
Definition set_need (s : st) (x : Z) : st :=
  {| s_port := s_port s; s_fixed := s_fixed s; s_seq := s_seq s; s_need := x; s_now := s_now s; s_next := s_next s;
     s_rnd := s_rnd s; s_lis := s_lis s; s_ifs := s_ifs s; s_ts := s_ts s |}.
Definition set_now (s : st) (x : Z) : st :=
  {| s_port := s_port s; s_fixed := s_fixed s; s_seq := s_seq s; s_need := s_need s; s_now := x; s_next := s_next s;
     s_rnd := s_rnd s; s_lis := s_lis s; s_ifs := s_ifs s; s_ts := s_ts s |}.
Definition set_port (s : st) (x : Z) : st :=
  {| s_port := x; s_fixed := s_fixed s; s_seq := s_seq s; s_need := s_need s; s_now := s_now s; s_next := s_next s;
     s_rnd := s_rnd s; s_lis := s_lis s; s_ifs := s_ifs s; s_ts := s_ts s |}.

Definition i_set_ref (v : Z) (x : itf) : itf :=
  {| i_id := i_id x; i_name := i_name x; i_ref := v; i_lis := i_lis x; i_agg := i_agg x; i_over := i_over x; i_set := i_set x;
     i_raw := i_raw x; i_port := i_port x; i_mport := i_mport x; i_m4 := i_m4 x; i_m6 := i_m6 x |}.
Definition i_set_lis (v : list Z) (x : itf) : itf :=
  {| i_id := i_id x; i_name := i_name x; i_ref := i_ref x; i_lis := v; i_agg := i_agg x; i_over := i_over x; i_set := i_set x;
     i_raw := i_raw x; i_port := i_port x; i_mport := i_mport x; i_m4 := i_m4 x; i_m6 := i_m6 x |}.
Definition i_set_agg (v : Z) (x : itf) : itf :=
  {| i_id := i_id x; i_name := i_name x; i_ref := i_ref x; i_lis := i_lis x; i_agg := v; i_over := i_over x; i_set := i_set x;
     i_raw := i_raw x; i_port := i_port x; i_mport := i_mport x; i_m4 := i_m4 x; i_m6 := i_m6 x |}.
Definition i_set_over (v : Z) (x : itf) : itf :=
  {| i_id := i_id x; i_name := i_name x; i_ref := i_ref x; i_lis := i_lis x; i_agg := i_agg x; i_over := v; i_set := i_set x;
     i_raw := i_raw x; i_port := i_port x; i_mport := i_mport x; i_m4 := i_m4 x; i_m6 := i_m6 x |}.
Definition t_set_ref (v : Z) (t : tgt) : tgt :=
  {| t_id := t_id t; t_if := t_if t; t_dst := t_dst t; t_kind := t_kind t; t_ref := v; t_seq := t_seq t; t_need := t_need t;
     t_open := t_open t; t_wait := t_wait t; t_timer := t_timer t |}.
Definition t_set_need (v : Z) (t : tgt) : tgt :=
  {| t_id := t_id t; t_if := t_if t; t_dst := t_dst t; t_kind := t_kind t; t_ref := t_ref t; t_seq := t_seq t; t_need := v;
     t_open := t_open t; t_wait := t_wait t; t_timer := t_timer t |}.
Definition t_set_timer (v : option Z) (t : tgt) : tgt :=
  {| t_id := t_id t; t_if := t_if t; t_dst := t_dst t; t_kind := t_kind t; t_ref := t_ref t; t_seq := t_seq t; t_need := t_need t;
     t_open := t_open t; t_wait := t_wait t; t_timer := v |}.

Definition find_if (s : st) (i : Z) : option itf := find (fun x => i_id x =? i) (s_ifs s).
Definition find_t (s : st) (t : Z) : option tgt := find (fun x => t_id x =? t) (s_ts s).
Definition get_if (s : st) (i : Z) : res itf := match find_if s i with Some x => Ok x | None => Bad (F_if i) end.
Definition get_t (s : st) (t : Z) : res tgt := match find_t s t with Some x => Ok x | None => Bad (F_tgt t) end.
Definition upd_if (i : Z) (f : itf -> itf) (s : st) : st :=
  set_ifs s (map (fun x => if i_id x =? i then f x else x) (s_ifs s)).
Definition upd_t (t : Z) (f : tgt -> tgt) (s : st) : st :=
  set_ts s (map (fun x => if t_id x =? t then f x else x) (s_ts s)).

(** ** Targets *)
(** oonf_rfc5444.c:975-1017 [_create_target] *)
Definition new_tgt (s : st) (i dst : Z) (k : kind) : tgt :=
  {| t_id := s_next s; t_if := i; t_dst := dst; t_kind := k; t_ref := 1; t_seq := u16 (s_rnd s (s_next s)); t_need := 0;
     t_open := None; t_wait := []; t_timer := None |}.
Definition create_target (s : st) (i dst : Z) (k : kind) : st :=
  set_next (set_ts s (s_ts s ++ [new_tgt s i dst k])) (s_next s + 1).
(** oonf_rfc5444.c:1024-1033 [_destroy_target]: the messages that wait are gone; the interface is read *)
Definition destroy_target (s : st) (t : tgt) : res st :=
  do _ <- get_if s (t_if t);
  Ok (set_ts s (filter (fun x => negb (t_id x =? t_id t)) (s_ts s))).

(** ** Interfaces *)
(** oonf_rfc5444.c:558-621 [oonf_rfc5444_add_interface] *)
Definition new_itf (s : st) (name : Z) : itf :=
  {| i_id := s_next s; i_name := name; i_ref := 0; i_lis := []; i_agg := 0; i_over := 0; i_set := false;
     i_raw := false; i_port := 0; i_mport := 0; i_m4 := None; i_m6 := None |}.
Definition hook (l : option Z) (x : itf) : itf :=
  i_set_lis (match l with Some l => i_lis x ++ [l] | None => i_lis x end) (i_set_ref (i_ref x + 1) x).
Definition add_interface (s : st) (l : option Z) (name : Z) : st * Z :=
  match find (fun x => i_name x =? name) (s_ifs s) with
  | Some x => (upd_if (i_id x) (hook l) s, i_id x)
  | None =>
    let i := s_next s in
    (upd_if i (hook l) (set_seq (set_next (set_ifs s (s_ifs s ++ [new_itf s name])) (i + 1)) (u16 (s_rnd s i))), i)
  end.
(** oonf_rfc5444.c:628-673 [oonf_rfc5444_remove_interface]; the list of listeners is gone with the interface *)
Definition remove_interface (s : st) (i : Z) : res st :=
  do x <- get_if s i;
  Ok (if i_ref x >? 1 then upd_if i (i_set_ref (i_ref x - 1)) s
      else set_ifs (set_ts s (filter (fun t => negb (t_if t =? i)) (s_ts s))) (filter (fun y => negb (i_id y =? i)) (s_ifs s))).
(** oonf_rfc5444.c:813-838 [oonf_rfc5444_add_target] *)
Definition add_target (s : st) (i dst : Z) : res (st * Z) :=
  do x <- get_if s i;
  match find (fun t => (t_if t =? i) && kind_eqb (t_kind t) Uni && (t_dst t =? dst)) (s_ts s) with
  | Some t => Ok (upd_if i (i_set_ref (i_ref x + 1)) s, t_id t)
  | None => Ok (upd_if i (i_set_ref (i_ref x + 1)) (create_target s i dst Uni), s_next s)
  end.
(** oonf_rfc5444.c:844-868 [oonf_rfc5444_remove_target] *)
Definition remove_target (s : st) (t : Z) : res st :=
  do x <- get_t s t;
  do _ <- get_if s (t_if x);
  if t_ref x >? 1 then Ok (upd_t t (t_set_ref (t_ref x - 1)) s)
  else do s <- remove_interface (set_ts s (filter (fun y => negb (t_id y =? t)) (s_ts s))) (t_if x);
       destroy_target s x.

(** oonf_rfc5444.h:85 [RFC5444_UNICAST_INTERFACE] *)
Definition ANY : Z := 0.
(** oonf_rfc5444.c:699-730: the fixed parts of the configuration *)
Definition settle (s : st) (x : itf) : itf :=
  let any := i_name x =? ANY in
  {| i_id := i_id x; i_name := i_name x; i_ref := i_ref x; i_lis := i_lis x; i_agg := i_agg x; i_over := i_over x; i_set := true;
     i_raw := i_raw x;
     i_port := if any then s_port s else if i_raw x then 0 else if s_fixed s && (i_port x =? 0) then s_port s else i_port x;
     i_mport := if i_raw x then 0 else if i_mport x =? 0 then s_port s else i_mport x;
     i_m4 := if any then None else i_m4 x; i_m6 := if any then None else i_m6 x |}.
(** oonf_rfc5444.c:688-697: a new configuration *)
Definition take (c : conf) (x : itf) : itf :=
  {| i_id := i_id x; i_name := i_name x; i_ref := i_ref x; i_lis := i_lis x; i_agg := i_agg x; i_over := i_over x; i_set := i_set x;
     i_raw := c_raw c; i_port := 0; i_mport := 0; i_m4 := c_m4 c; i_m6 := c_m6 c |}.
(** oonf_rfc5444.c:741-788: one multicast target of an interface *)
Definition renew (s : st) (i : Z) (k : kind) (a : option Z) : st :=
  let s := set_ts s (filter (fun t => negb ((t_if t =? i) && kind_eqb (t_kind t) k)) (s_ts s)) in
  match a with Some a => create_target s i a k | None => s end.
(** oonf_rfc5444.c:1452-1454 *)
Fixpoint call (alive ls : list Z) : res unit :=
  match ls with
  | [] => Ok tt
  | l :: r => if existsb (Z.eqb l) alive then call alive r else Bad (F_lis l)
  end.
Definition notify (s : st) (i : Z) : res st := do x <- get_if s i; do _ <- call (s_lis s) (i_lis x); Ok s.
(** oonf_rfc5444.c:683-788 [oonf_rfc5444_reconfigure_interface] without a new configuration, when no socket changes
    any more; [oonf_packet_apply_managed] calls [_cb_interface_changed] (oonf_packet_socket.c:541-543) *)
Definition reapply (s : st) (i : Z) : res st :=
  do _ <- get_if s i;
  let s := upd_if i (settle s) s in
  if s_port s =? 0 then Ok s
  else do s <- notify s i; do x <- get_if s i; Ok (renew (renew s i M4 (i_m4 x)) i M6 (i_m6 x)).
(** oonf_rfc5444.c:1440-1455 [_cb_interface_changed] *)
Definition changed (s : st) (i : Z) (ch : bool) : res st :=
  do s <- (if ch then reapply s i else Ok s); notify s i.
(** oonf_rfc5444.c:683-788 [oonf_rfc5444_reconfigure_interface]; [ch]: a socket changed, so that it is called again
    from inside *)
Definition reconfigure (s : st) (i : Z) (c : option conf) (ch : bool) : res st :=
  do _ <- get_if s i;
  let s := match c with Some c => upd_if i (take c) s | None => s end in
  let s := upd_if i (settle s) s in
  if s_port s =? 0 then Ok s
  else
    do s <- changed s i ch;
    do x <- get_if s i;
    let m4 := match c with Some c => c_m4 c | None => i_m4 x end in
    let m6 := match c with Some c => c_m6 c | None => i_m6 x end in
    Ok (renew (renew s i M4 m4) i M6 m6).
(** oonf_rfc5444.c:519-541 [oonf_rfc5444_reconfigure_protocol]; the IP protocol is left out *)
Fixpoint reconf_all (s : st) (is : list Z) (ch : bool) : res st :=
  match is with [] => Ok s | i :: r => do s <- reconfigure s i None ch; reconf_all s r ch end.
Definition reconfigure_protocol (s : st) (p : Z) (ch : bool) : res st :=
  if p =? s_port s then Ok s
  else let s := set_port s p in
       if p =? 0 then Ok s else reconf_all s (map i_id (s_ifs s)) ch.
(** oonf_rfc5444.c:1392-1432 [_cb_cfg_interface_changed] of a section that was added ([pre] false) or changed *)
Definition section_set (s : st) (pre : bool) (name : Z) (c : conf) (ch : bool) : res st :=
  let r := if pre then (s, match find (fun x => i_name x =? name) (s_ifs s) with Some x => i_id x | None => -1 end)
           else add_interface s None name in
  do s <- reconfigure (fst r) (snd r) (Some c) ch;
  Ok (upd_if (snd r) (i_set_agg (c_agg c)) s).
(** oonf_rfc5444.c:1403-1409, 1431: the section is gone; the local variable [config] that is cleaned up was never set *)
Definition section_gone (s : st) (name : Z) : res st :=
  do _ <- (match find (fun x => i_name x =? name) (s_ifs s) with Some x => remove_interface s (i_id x) | None => Ok s end);
  Bad F_config.

(** ** Packets *)
(** a packet to the target [p_t]: its sequence number and messages *)
Record packet := { p_t : Z; p_dst : Z; p_seq : option Z; p_msgs : list (Z * Z) }.
(** oonf_rfc5444.c:1341-1354 [_cb_add_seqno], rfc5444_pkt_generator.c:63-102 [_rfc5444_writer_begin_packet] *)
Definition begin_packet (s : st) (t : tgt) : tgt :=
  let q := (t_need t >? 0) || (s_need s >? 0) in
  let n := if q then u16 (t_seq t + 1) else t_seq t in
  {| t_id := t_id t; t_if := t_if t; t_dst := t_dst t; t_kind := t_kind t; t_ref := t_ref t; t_seq := n; t_need := t_need t;
     t_open := Some (if q then Some n else None); t_wait := []; t_timer := t_timer t |}.
Definition close_packet (t : tgt) : tgt :=
  {| t_id := t_id t; t_if := t_if t; t_dst := t_dst t; t_kind := t_kind t; t_ref := t_ref t; t_seq := t_seq t; t_need := t_need t;
     t_open := None; t_wait := []; t_timer := t_timer t |}.
Definition add_msg (m now : Z) (t : tgt) : tgt :=
  {| t_id := t_id t; t_if := t_if t; t_dst := t_dst t; t_kind := t_kind t; t_ref := t_ref t; t_seq := t_seq t; t_need := t_need t;
     t_open := t_open t; t_wait := t_wait t ++ [(m, now)]; t_timer := t_timer t |}.
(** rfc5444_pkt_generator.c:112-202 [rfc5444_writer_flush]; postprocessors are left out *)
Definition flush (s : st) (t : tgt) (force : bool) : tgt * list packet :=
  let t := match t_open t with None => if force then begin_packet s t else t | Some _ => t end in
  match t_open t with
  | None => (t, [])
  | Some q => (close_packet t, [{| p_t := t_id t; p_dst := t_dst t; p_seq := q; p_msgs := t_wait t |}])
  end.
(** oonf_rfc5444.c:1196-1211 [_cb_msggen_notifier] *)
Definition msggen_notifier (s : st) (x : itf) (t : tgt) : tgt :=
  match t_timer t with Some _ => t | None => t_set_timer (Some (s_now s + i_agg x)) t end.
(** src/librfc5444/rfc5444_msg_generator.c:204-207 and 1495-1569: one message to a target; [full]: it does not fit into the packet *)
Definition message (s : st) (x : itf) (t : tgt) (m : Z) (full : bool) : tgt * list packet :=
  let t := match t_open t with None => begin_packet s t | Some _ => t end in
  let r := if full then let r := flush s t false in (begin_packet s (fst r), snd r) else (t, []) in
  (msggen_notifier s x (add_msg m (s_now s) (fst r)), snd r).

(** ** The calls *)
Inductive op :=
| AddIf (l : option Z) (name : Z)      (* oonf_rfc5444_add_interface with a listener that was just made *)
| RemIf (i : Z) (l : option Z)         (* oonf_rfc5444_remove_interface; the caller frees the listener, nhdp_interfaces.c:310-311 *)
| AddTgt (i dst : Z) | RemTgt (t : Z)
| Conf (i : Z) (c : conf) (ch : bool)  (* oonf_rfc5444_reconfigure_interface *)
| Section (pre : bool) (name : Z) (c : conf) (ch : bool)
| SectionGone (name : Z)
| Event (i : Z) (ch : bool)            (* the managed socket of an interface reports a change *)
| Port (p : Z) (ch : bool)
| Over (i v : Z)                       (* oonf_rfc5444.c:798-805 oonf_rfc5444_interface_set_aggregation *)
| Msg (t m : Z) (full : bool)
| Flush (t : Z) (force : bool)         (* oonf_rfc5444.h:311-314 *)
| Fire (t : Z)                         (* oonf_rfc5444.c:1361-1367 _cb_aggregation_event of a timer that is due *)
| Tick (d : Z)
| MsgSeq                               (* oonf_rfc5444.h:416-421 oonf_rfc5444_get_next_message_seqno *)
| Need (n : Z) | NeedT (t n : Z).      (* oonf_rfc5444.h:366-400: users of packet sequence numbers *)
(** what a caller gets or the network sees *)
Inductive out := Got (h : Z) | Sent (p : packet) | Seq (q : Z).
Definition ret (x : res st) : res (st * list out) := do s <- x; Ok (s, []).
Definition on_target (s : st) (t : Z) (f : tgt -> tgt * list packet) : res (st * list out) :=
  do x <- get_t s t;
  do _ <- get_if s (t_if x);
  Ok (upd_t t (fun y => fst (f y)) s, map Sent (snd (f x))).
Definition step (s : st) (o : op) : res (st * list out) :=
  match o with
  | AddIf l name =>
    let s := match l with Some l => set_lis s (l :: s_lis s) | None => s end in
    let r := add_interface s l name in Ok (fst r, [Got (snd r)])
  | RemIf i l =>
    ret (do s <- remove_interface s i;
         Ok (match l with Some l => set_lis s (filter (fun y => negb (y =? l)) (s_lis s)) | None => s end))
  | AddTgt i dst => do r <- add_target s i dst; Ok (fst r, [Got (snd r)])
  | RemTgt t => ret (remove_target s t)
  | Conf i c ch => ret (reconfigure s i (Some c) ch)
  | Section pre name c ch => ret (section_set s pre name c ch)
  | SectionGone name => ret (section_gone s name)
  | Event i ch => ret (changed s i ch)
  | Port p ch => ret (reconfigure_protocol s p ch)
  | Over i v => ret (do _ <- get_if s i; Ok (upd_if i (i_set_over v) s))
  | Msg t m full =>
    do y <- get_t s t; do x <- get_if s (t_if y); on_target s t (fun y => message s x y m full)
  | Flush t force => on_target s t (fun y => flush s y force)
  | Fire t =>
    match find_t s t with
    | Some y => match t_timer y with
                | Some d => if s_now s <? d then Ok (s, []) else on_target s t (fun y => flush s (t_set_timer None y) false)
                | None => Ok (s, [])
                end
    | None => Ok (s, [])
    end
  | Tick d => Ok (set_now s (s_now s + Z.max 0 d), [])
  | MsgSeq => let q := u16 (s_seq s + 1) in Ok (set_seq s q, [Seq q])
  | Need n => Ok (set_need s n, [])
  | NeedT t n => ret (do _ <- get_t s t; Ok (upd_t t (t_set_need n) s))
  end.
Fixpoint run (s : st) (ops : list op) : res (st * list out) :=
  match ops with
  | [] => Ok (s, [])
  | o :: r => do a <- step s o; do b <- run (fst a) r; Ok (fst b, snd a ++ snd b)
  end.
(** [_init], oonf_rfc5444.c:303-332, with the protocol only *)
Definition init (fixed : bool) (rnd : Z -> Z) : st :=
  {| s_port := 0; s_fixed := fixed; s_seq := 0; s_need := 0; s_now := 0; s_next := 1; s_rnd := rnd; s_lis := []; s_ifs := []; s_ts := [] |}.
