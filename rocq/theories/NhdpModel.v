(** Model of the NHDP database and of HELLO processing:
    src/nhdp/nhdp/nhdp_db.c, src/nhdp/nhdp/nhdp_reader.c, the parts of
    src/nhdp/nhdp/nhdp_interfaces.c that touch links, and the inline functions
    of include/oonf/nhdp/nhdp/nhdp_db.h and nhdp_interfaces.h.

    Simplifications (all definitions):
    - Objects are identified by numbers that are never reused; a pointer to a
      freed object is a number that is not in the database.  Following such a
      pointer is the outcome [Bad].
    - The lists and trees inside of neighbors, links and interfaces
      (neigh->_links, neigh->_neigh_addresses, lnk->_addresses, lnk->_2hop,
      interf->_links, interf->_link_addresses, the originator trees, ...) are
      the objects of the global lists of this state that point to the
      neighbor, link or interface, in the order of creation.
    - Allocation never fails.  Log output, object events (oonf_class_event) and
      the statistics are left out; metrics, willingness and MPR flags
      (nhdp_domain.c) are left out, they change no pointer of this state.
      The flooding flags of interfaces (nhdp_interface_update_status) are left
      out; its walk through the links only follows pointers that
      are checked here anyway.
    - An address is a pair of address family and value (bytes and prefix length);
      family 0 is AF_UNSPEC.
    - A running timer is its absolute due time; a stopped one is [None].
      Firing is an event that may happen any time from the due time on.
    - Counters are unbounded integers. *)
From Verif Require Import Base.

Definition addr := (Z * Z)%type.
Definition a_af (a : addr) : Z := fst a.
Definition addr_eqb (a b : addr) : bool := (fst a =? fst b) && (snd a =? snd b).
Definition UNSPEC : addr := (0, 0).
Definition AF_INET : Z := 2.
Definition AF_INET6 : Z := 10.
(** src/libcommon/netaddr.c netaddr_get_binlength, the families of HELLOs *)
Definition binlength (a : addr) : Z := if a_af a =? AF_INET then 4 else if a_af a =? AF_INET6 then 16 else 0.

(** include/oonf/nhdp/nhdp/nhdp_db.h:81-94 *)
Definition PENDING : Z := -1.
Definition LOST : Z := 0.
Definition SYMMETRIC : Z := 1.
Definition HEARD : Z := 2.

(** include/oonf/nhdp/nhdp/nhdp_db.h:300-339 *)
Record neigh := { n_id : Z; n_orig : addr; n_sym : Z; n_dual : option Z; n_pc : Z }.
(** include/oonf/nhdp/nhdp/nhdp_db.h:171-246 *)
Record link := {
  l_id : Z; l_n : Z; l_if : Z; l_ifaddr : addr; l_mac : addr;
  l_status : Z; l_dual : option Z; l_pc : Z;
  l_sym : option Z; l_heard : option Z; l_vt : option Z   (* sym_time, heard_time, vtime *)
}.
(** include/oonf/nhdp/nhdp/nhdp_db.h:345-375 *)
Record naddr := { na_addr : addr; na_n : Z; na_lost : option Z; na_mbr : bool }.
(** include/oonf/nhdp/nhdp/nhdp_db.h:251-269; [la_if] is the interface in
    whose tree the address hangs *)
Record laddr := { la_addr : addr; la_l : Z; la_if : Z; la_mbr : bool }.
(** include/oonf/nhdp/nhdp/nhdp_db.h:274-295 *)
Record l2hop := { h2_addr : addr; h2_l : Z; h2_same : bool; h2_vt : option Z }.

(** what the database reads from the rest of the node: own addresses (per
    interface and all), originators per family, MAC of interfaces, hold times,
    hysteresis handler *)
Record env := {
  e_own : Z -> addr -> bool; e_any : addr -> bool; e_orig : Z -> addr; e_mac : Z -> addr;
  e_nhold : Z -> Z; e_lhold : Z -> Z; e_pend : Z -> bool; e_hlost : Z -> bool
}.

(** nhdp_reader.c:209-229 [_current] *)
Record cur := {
  c_if : Z; c_n : option Z; c_l : option Z; c_nconf : bool; c_lconf : bool;
  c_heard : bool; c_lost : bool; c_thisif : bool; c_origblk : bool
}.
Definition cur0 : cur :=
  {| c_if := 0; c_n := None; c_l := None; c_nconf := false; c_lconf := false;
     c_heard := false; c_lost := false; c_thisif := false; c_origblk := false |}.

Record db := {
  s_now : Z; s_next : Z; s_ifs : list Z; s_env : env;
  s_n : list neigh; s_l : list link; s_na : list naddr; s_la : list laddr; s_h : list l2hop;
  s_setid : Z; s_cur : cur
}.

Inductive fault := F_neigh (i : Z) | F_link (i : Z) | F_if (i : Z).
Inductive res (A : Type) := Ok (a : A) | Bad (f : fault).
Arguments Ok {A} _.
Arguments Bad {A} _.
Definition rbind {A B} (x : res A) (f : A -> res B) : res B := match x with Ok a => f a | Bad e => Bad e end.
Notation "'do' x <- a ; b" := (rbind a (fun x => b)) (at level 200, x name, a at level 100, b at level 200).

(** ** Record updates *)
Definition set_n (s : db) (x : list neigh) : db :=
  {| s_now := s_now s; s_next := s_next s; s_ifs := s_ifs s; s_env := s_env s; s_n := x; s_l := s_l s;
     s_na := s_na s; s_la := s_la s; s_h := s_h s; s_setid := s_setid s; s_cur := s_cur s |}.
Definition set_l (s : db) (x : list link) : db :=
  {| s_now := s_now s; s_next := s_next s; s_ifs := s_ifs s; s_env := s_env s; s_n := s_n s; s_l := x;
     s_na := s_na s; s_la := s_la s; s_h := s_h s; s_setid := s_setid s; s_cur := s_cur s |}.
Definition set_na (s : db) (x : list naddr) : db :=
  {| s_now := s_now s; s_next := s_next s; s_ifs := s_ifs s; s_env := s_env s; s_n := s_n s; s_l := s_l s;
     s_na := x; s_la := s_la s; s_h := s_h s; s_setid := s_setid s; s_cur := s_cur s |}.
Definition set_la (s : db) (x : list laddr) : db :=
  {| s_now := s_now s; s_next := s_next s; s_ifs := s_ifs s; s_env := s_env s; s_n := s_n s; s_l := s_l s;
     s_na := s_na s; s_la := x; s_h := s_h s; s_setid := s_setid s; s_cur := s_cur s |}.
Definition set_h (s : db) (x : list l2hop) : db :=
  {| s_now := s_now s; s_next := s_next s; s_ifs := s_ifs s; s_env := s_env s; s_n := s_n s; s_l := s_l s;
     s_na := s_na s; s_la := s_la s; s_h := x; s_setid := s_setid s; s_cur := s_cur s |}.
Definition set_cur (s : db) (x : cur) : db :=
  {| s_now := s_now s; s_next := s_next s; s_ifs := s_ifs s; s_env := s_env s; s_n := s_n s; s_l := s_l s;
     s_na := s_na s; s_la := s_la s; s_h := s_h s; s_setid := s_setid s; s_cur := x |}.
Definition set_ifs (s : db) (x : list Z) : db :=
  {| s_now := s_now s; s_next := s_next s; s_ifs := x; s_env := s_env s; s_n := s_n s; s_l := s_l s;
     s_na := s_na s; s_la := s_la s; s_h := s_h s; s_setid := s_setid s; s_cur := s_cur s |}.
Definition set_env (s : db) (x : env) : db :=
  {| s_now := s_now s; s_next := s_next s; s_ifs := s_ifs s; s_env := x; s_n := s_n s; s_l := s_l s;
     s_na := s_na s; s_la := s_la s; s_h := s_h s; s_setid := s_setid s; s_cur := s_cur s |}.
Definition set_now (s : db) (x : Z) : db :=
  {| s_now := x; s_next := s_next s; s_ifs := s_ifs s; s_env := s_env s; s_n := s_n s; s_l := s_l s;
     s_na := s_na s; s_la := s_la s; s_h := s_h s; s_setid := s_setid s; s_cur := s_cur s |}.
Definition set_next (s : db) (x : Z) : db :=
  {| s_now := s_now s; s_next := x; s_ifs := s_ifs s; s_env := s_env s; s_n := s_n s; s_l := s_l s;
     s_na := s_na s; s_la := s_la s; s_h := s_h s; s_setid := s_setid s; s_cur := s_cur s |}.
Definition bump_setid (s : db) : db :=
  {| s_now := s_now s; s_next := s_next s; s_ifs := s_ifs s; s_env := s_env s; s_n := s_n s; s_l := s_l s;
     s_na := s_na s; s_la := s_la s; s_h := s_h s; s_setid := u32 (s_setid s + 1); s_cur := s_cur s |}.

Definition n_set_orig (a : addr) (n : neigh) : neigh :=
  {| n_id := n_id n; n_orig := a; n_sym := n_sym n; n_dual := n_dual n; n_pc := n_pc n |}.
Definition n_set_sym (v : Z) (n : neigh) : neigh :=
  {| n_id := n_id n; n_orig := n_orig n; n_sym := v; n_dual := n_dual n; n_pc := n_pc n |}.
Definition n_set_dual (v : option Z) (n : neigh) : neigh :=
  {| n_id := n_id n; n_orig := n_orig n; n_sym := n_sym n; n_dual := v; n_pc := n_pc n |}.
Definition n_set_pc (v : Z) (n : neigh) : neigh :=
  {| n_id := n_id n; n_orig := n_orig n; n_sym := n_sym n; n_dual := n_dual n; n_pc := v |}.
Definition l_set_addr (a m : addr) (l : link) : link :=
  {| l_id := l_id l; l_n := l_n l; l_if := l_if l; l_ifaddr := a; l_mac := m; l_status := l_status l;
     l_dual := l_dual l; l_pc := l_pc l; l_sym := l_sym l; l_heard := l_heard l; l_vt := l_vt l |}.
Definition l_set_status (v : Z) (l : link) : link :=
  {| l_id := l_id l; l_n := l_n l; l_if := l_if l; l_ifaddr := l_ifaddr l; l_mac := l_mac l; l_status := v;
     l_dual := l_dual l; l_pc := l_pc l; l_sym := l_sym l; l_heard := l_heard l; l_vt := l_vt l |}.
Definition l_set_dual (v : option Z) (l : link) : link :=
  {| l_id := l_id l; l_n := l_n l; l_if := l_if l; l_ifaddr := l_ifaddr l; l_mac := l_mac l; l_status := l_status l;
     l_dual := v; l_pc := l_pc l; l_sym := l_sym l; l_heard := l_heard l; l_vt := l_vt l |}.
Definition l_set_pc (v : Z) (l : link) : link :=
  {| l_id := l_id l; l_n := l_n l; l_if := l_if l; l_ifaddr := l_ifaddr l; l_mac := l_mac l; l_status := l_status l;
     l_dual := l_dual l; l_pc := v; l_sym := l_sym l; l_heard := l_heard l; l_vt := l_vt l |}.
Definition l_set_sym (v : option Z) (l : link) : link :=
  {| l_id := l_id l; l_n := l_n l; l_if := l_if l; l_ifaddr := l_ifaddr l; l_mac := l_mac l; l_status := l_status l;
     l_dual := l_dual l; l_pc := l_pc l; l_sym := v; l_heard := l_heard l; l_vt := l_vt l |}.
Definition l_set_heard (v : option Z) (l : link) : link :=
  {| l_id := l_id l; l_n := l_n l; l_if := l_if l; l_ifaddr := l_ifaddr l; l_mac := l_mac l; l_status := l_status l;
     l_dual := l_dual l; l_pc := l_pc l; l_sym := l_sym l; l_heard := v; l_vt := l_vt l |}.
Definition l_set_vt (v : option Z) (l : link) : link :=
  {| l_id := l_id l; l_n := l_n l; l_if := l_if l; l_ifaddr := l_ifaddr l; l_mac := l_mac l; l_status := l_status l;
     l_dual := l_dual l; l_pc := l_pc l; l_sym := l_sym l; l_heard := l_heard l; l_vt := v |}.
Definition na_set_lost (v : option Z) (x : naddr) : naddr :=
  {| na_addr := na_addr x; na_n := na_n x; na_lost := v; na_mbr := na_mbr x |}.
Definition na_set_mbr (v : bool) (x : naddr) : naddr :=
  {| na_addr := na_addr x; na_n := na_n x; na_lost := na_lost x; na_mbr := v |}.
Definition na_set_n (v : Z) (x : naddr) : naddr :=
  {| na_addr := na_addr x; na_n := v; na_lost := na_lost x; na_mbr := na_mbr x |}.
Definition la_set_mbr (v : bool) (x : laddr) : laddr :=
  {| la_addr := la_addr x; la_l := la_l x; la_if := la_if x; la_mbr := v |}.
Definition la_set_l (v : Z) (x : laddr) : laddr :=
  {| la_addr := la_addr x; la_l := v; la_if := la_if x; la_mbr := la_mbr x |}.

(** ** Access to objects *)
Definition upd {A} (p : A -> bool) (f : A -> A) (l : list A) : list A := map (fun x => if p x then f x else x) l.
Definition del {A} (p : A -> bool) (l : list A) : list A := filter (fun x => negb (p x)) l.
Definition is_n (i : Z) (n : neigh) : bool := n_id n =? i.
Definition is_l (i : Z) (l : link) : bool := l_id l =? i.
Definition is_na (a : addr) (x : naddr) : bool := addr_eqb (na_addr x) a.
Definition is_la (i : Z) (a : addr) (x : laddr) : bool := (la_if x =? i) && addr_eqb (la_addr x) a.
Definition is_h (i : Z) (a : addr) (x : l2hop) : bool := (h2_l x =? i) && addr_eqb (h2_addr x) a.

Definition get_n (s : db) (i : Z) : res neigh := match find (is_n i) (s_n s) with Some n => Ok n | None => Bad (F_neigh i) end.
Definition get_l (s : db) (i : Z) : res link := match find (is_l i) (s_l s) with Some l => Ok l | None => Bad (F_link i) end.
Definition chk_if (s : db) (i : Z) : res unit := if existsb (Z.eqb i) (s_ifs s) then Ok tt else Bad (F_if i).
Definition upd_n (s : db) (i : Z) (f : neigh -> neigh) : db := set_n s (upd (is_n i) f (s_n s)).
Definition upd_l (s : db) (i : Z) (f : link -> link) : db := set_l s (upd (is_l i) f (s_l s)).

(** oonf_timer_set, src/base/oonf_timer.c:230-239: relative time 0 stops the
    timer; no rounding of the due time *)
Definition timer (s : db) (rel : Z) : option Z := if rel =? 0 then None else Some (u64 (s_now s + rel)).
Definition active (t : option Z) : bool := match t with Some _ => true | None => false end.

(** nhdp_db.h:417-421, 427-431 *)
Definition naddr_get (s : db) (a : addr) : option naddr := find (is_na a) (s_na s).
Definition neigh_by_orig (s : db) (a : addr) : option neigh :=
  find (fun n => negb (a_af (n_orig n) =? 0) && addr_eqb (n_orig n) a) (s_n s).
(** nhdp_interfaces.h: nhdp_interface_get_link_addr *)
Definition laddr_get (s : db) (i : Z) (a : addr) : option laddr := find (is_la i a) (s_la s).
(** nhdp_interfaces.h: nhdp_interface_link_get_by_originator *)
Definition link_by_orig (s : db) (i : Z) (a : addr) : option link :=
  find (fun l => (l_if l =? i) &&
                 match find (is_n (l_n l)) (s_n s) with
                 | Some n => negb (a_af (n_orig n) =? 0) && addr_eqb (n_orig n) a
                 | None => false
                 end) (s_l s).
Definition links_of (s : db) (n : Z) : list link := filter (fun l => l_n l =? n) (s_l s).

(** ** nhdp_db.c *)
(** nhdp_db.c:197-227 [nhdp_db_neighbor_add] *)
Definition neighbor_add (s : db) : db * Z :=
  let i := s_next s in
  (set_next (set_n s (s_n s ++ [{| n_id := i; n_orig := UNSPEC; n_sym := 0; n_dual := None; n_pc := 0 |}])) (i + 1), i).

(** nhdp_db.c:508-514 [nhdp_db_neigbor_disconnect_dualstack] *)
Definition n_disconnect (s : db) (i : Z) : res db :=
  do n <- get_n s i;
  match n_dual n with
  | None => Ok s
  | Some p => do _ <- get_n s p; Ok (upd_n (upd_n s p (n_set_dual None)) i (n_set_dual None))
  end.
(** nhdp_db.c:491-502 [nhdp_db_neighbor_connect_dualstack] *)
Definition dual_is (d : option Z) (i : Z) : bool := match d with Some j => j =? i | None => false end.
Definition n_connect (s : db) (a b : Z) : res db :=
  do na <- get_n s a;
  do s <- (if dual_is (n_dual na) b then Ok s else do s <- n_disconnect s a; Ok (upd_n s a (n_set_dual (Some b))));
  do nb <- get_n s b;
  if dual_is (n_dual nb) a then Ok s else do s <- n_disconnect s b; Ok (upd_n s b (n_set_dual (Some a))).
(** nhdp_db.c:810-816 [nhdp_db_link_disconnect_dualstack] *)
Definition l_disconnect (s : db) (i : Z) : res db :=
  do l <- get_l s i;
  match l_dual l with
  | None => Ok s
  | Some p => do _ <- get_l s p; Ok (upd_l (upd_l s p (l_set_dual None)) i (l_set_dual None))
  end.
(** nhdp_db.c:793-804 [nhdp_db_link_connect_dualstack] *)
Definition l_connect (s : db) (a b : Z) : res db :=
  do la <- get_l s a;
  do s <- (if dual_is (l_dual la) b then Ok s else do s <- l_disconnect s a; Ok (upd_l s a (l_set_dual (Some b))));
  do lb <- get_l s b;
  if dual_is (l_dual lb) a then Ok s else do s <- l_disconnect s b; Ok (upd_l s b (l_set_dual (Some a))).

(** nhdp_db.c:531-574 [nhdp_db_link_add]; a new object is filled with zeros *)
Definition link_add (s : db) (n i : Z) : res (db * Z) :=
  do _ <- get_n s n;
  do _ <- chk_if s i;
  let id := s_next s in
  Ok (set_next (set_l s (s_l s ++
        [{| l_id := id; l_n := n; l_if := i; l_ifaddr := UNSPEC; l_mac := UNSPEC; l_status := LOST; l_dual := None;
            l_pc := 0; l_sym := None; l_heard := None; l_vt := None |}])) (id + 1), id).

(** nhdp_db.c:607-647 [nhdp_db_link_remove]: no change of neigh->symmetric *)
Definition link_remove (s : db) (i : Z) : res db :=
  do l <- get_l s i;
  do s <- (if active (l_dual l) then l_disconnect s i else Ok s);
  do _ <- get_n s (l_n l);
  do _ <- chk_if s (l_if l);
  let s := set_la s (del (fun x => la_l x =? i) (s_la s)) in
  let s := set_h s (del (fun x => h2_l x =? i) (s_h s)) in
  Ok (set_l s (del (is_l i) (s_l s))).

Fixpoint links_remove (s : db) (ids : list Z) : res db :=
  match ids with
  | [] => Ok s
  | i :: r => do s <- link_remove s i; links_remove s r
  end.

(** nhdp_db.c:233-285 [nhdp_db_neighbor_remove] *)
Definition neighbor_remove (s : db) (i : Z) : res db :=
  do s <- n_disconnect s i;
  do s <- links_remove s (map l_id (links_of s i));
  let s := set_na s (del (fun x => na_n x =? i) (s_na s)) in
  Ok (set_n s (del (is_n i) (s_n s))).

(** nhdp_db.c:361-389 [nhdp_db_neighbor_addr_add] *)
Definition naddr_add (s : db) (n : Z) (a : addr) : res db :=
  do _ <- get_n s n;
  Ok (set_na s (s_na s ++ [{| na_addr := a; na_n := n; na_lost := None; na_mbr := false |}])).
(** nhdp_db.c:395-409 [nhdp_db_neighbor_addr_remove] *)
Definition naddr_remove (s : db) (a : addr) : db := set_na s (del (is_na a) (s_na s)).
(** nhdp_db.c:416-426 [nhdp_db_neighbor_addr_move] *)
Definition naddr_move (s : db) (n : Z) (a : addr) : db := set_na s (upd (is_na a) (na_set_n n) (s_na s)).
(** nhdp_db.h:501-513 *)
Definition naddr_set_lost (s : db) (p : naddr -> bool) (rel : Z) : db :=
  set_na s (upd p (na_set_lost (timer s rel)) (s_na s)).
Definition naddr_not_lost (s : db) (p : naddr -> bool) : db := set_na s (upd p (na_set_lost None) (s_na s)).

(** nhdp_db.c:433-484 [nhdp_db_neighbor_set_originator] *)
Definition links_if_ok (s : db) (n : Z) : res unit :=
  fold_right (fun l r => do _ <- chk_if s (l_if l); r) (Ok tt) (links_of s n).
Definition set_originator (s : db) (i : Z) (a : addr) : res db :=
  do n <- get_n s i;
  if addr_eqb (n_orig n) a then Ok s
  else
    do _ <- (if a_af (n_orig n) =? 0 then Ok tt else links_if_ok s i);
    (* the neighbor itself is not in the tree any more when the other one is looked up *)
    do s <- match neigh_by_orig (upd_n s i (n_set_orig UNSPEC)) a with
            | Some n2 => do _ <- links_if_ok s (n_id n2); Ok (upd_n s (n_id n2) (n_set_orig UNSPEC))
            | None => Ok s
            end;
    do _ <- (if a_af a =? 0 then Ok tt else links_if_ok s i);
    Ok (upd_n s i (n_set_orig a)).

(** nhdp_db.c:655-682 [nhdp_db_link_addr_add] *)
Definition laddr_add (s : db) (i : Z) (a : addr) : res db :=
  do l <- get_l s i;
  do _ <- get_n s (l_n l);
  do _ <- chk_if s (l_if l);
  Ok (set_la s (s_la s ++ [{| la_addr := a; la_l := i; la_if := l_if l; la_mbr := false |}])).
(** nhdp_db.c:707-724 [nhdp_db_link_addr_move] *)
Definition laddr_move (s : db) (i : Z) (x : laddr) : res db :=
  do l <- get_l s i;
  do l' <- get_l s (la_l x);
  do _ <- get_n s (l_n l);
  do _ <- get_n s (l_n l');
  Ok (set_la s (upd (is_la (la_if x) (la_addr x)) (la_set_l i) (s_la s))).
(** nhdp_db.c:732-764 [nhdp_db_link_2hop_add] *)
Definition l2hop_add (s : db) (i : Z) (a : addr) : res db :=
  do l <- get_l s i;
  do _ <- chk_if s (l_if l);
  Ok (set_h s (s_h s ++ [{| h2_addr := a; h2_l := i; h2_same := false; h2_vt := None |}])).
(** nhdp_db.c:770-786 [nhdp_db_link_2hop_remove] for a set of addresses *)
Definition l2hops_remove (s : db) (p : l2hop -> bool) : res db :=
  do _ <- fold_right (fun x r => if p x then do l <- get_l s (h2_l x); do _ <- chk_if s (l_if l); r else r) (Ok tt) (s_h s);
  Ok (set_h s (del p (s_h s))).

(** nhdp_db.c:918-955 [_nhdp_db_link_calculate_status] *)
Definition calc_status (s : db) (l : link) : res Z :=
  let e := s_env s in
  do _ <- chk_if s (l_if l);
  do n <- get_n s (l_n l);
  let o := e_orig e (a_af (l_ifaddr l)) in
  if negb (a_af o =? 0) && (addr_eqb o (l_ifaddr l) || addr_eqb o (n_orig n)) then Ok PENDING
  else if e_own e (l_if l) (l_ifaddr l) then Ok PENDING
  else if negb (a_af (l_mac l) =? 0) && addr_eqb (e_mac e (l_if l)) (l_mac l) then Ok PENDING
  else if e_pend e (l_id l) then Ok PENDING
  else if e_hlost e (l_id l) then Ok LOST
  else if active (l_sym l) then Ok SYMMETRIC
  else if active (l_heard l) then Ok HEARD
  else Ok LOST.

(** nhdp_db.c:961-973 [_link_status_now_symmetric] *)
Definition now_symmetric (s : db) (i : Z) : res db :=
  do l <- get_l s i;
  do n <- get_n s (l_n l);
  let s := upd_n s (l_n l) (n_set_sym (n_sym n + 1)) in
  if n_sym n + 1 =? 1 then Ok (bump_setid (naddr_not_lost s (fun x => na_n x =? l_n l))) else Ok s.

(** nhdp_db.c:979-998 [_link_status_not_symmetric_anymore] *)
Definition not_symmetric (s : db) (i : Z) : res db :=
  do l <- get_l s i;
  do s <- l2hops_remove s (fun x => h2_l x =? i);
  do n <- get_n s (l_n l);
  let s := upd_n s (l_n l) (n_set_sym (n_sym n - 1)) in
  if n_sym n - 1 =? 0 then
    do _ <- chk_if s (l_if l);
    Ok (bump_setid (naddr_set_lost s (fun x => na_n x =? l_n l) (e_nhold (s_env s) (l_if l))))
  else Ok s.

(** nhdp_db.c:580-601 [nhdp_db_link_set_unsymmetric]: the status stays *)
Definition set_unsymmetric (s : db) (i : Z) : res db :=
  do l <- get_l s i;
  do s <- (if l_status l =? SYMMETRIC then not_symmetric s i else Ok s);
  let s := upd_l s i (l_set_sym None) in
  l2hops_remove s (fun x => h2_l x =? i).

(** nhdp_db.c:823-857 [nhdp_db_link_update_status] *)
Definition update_status (s : db) (i : Z) : res db :=
  do l <- get_l s i;
  do st <- calc_status s l;
  let s := upd_l s i (l_set_status st) in
  let was := l_status l =? SYMMETRIC in
  let is := st =? SYMMETRIC in
  do s <- (if was && negb is then not_symmetric s i else Ok s);
  do s <- (if negb was && is then now_symmetric s i else Ok s);
  Ok s.

(** ** Timer callbacks, nhdp_db.c:1004-1079 *)
(** nhdp_db.c:1004-1025 [_cb_link_vtime] *)
Definition cb_link_vtime (s : db) (i : Z) : res db :=
  do l <- get_l s i;
  do s <- (if l_status l =? SYMMETRIC then not_symmetric s i else Ok s);
  do s <- link_remove s i;
  match links_of s (l_n l) with
  | [] => neighbor_remove s (l_n l)
  | _ => Ok s
  end.

(** ** HELLO processing, nhdp_reader.c *)
(** one address with the values of its TLVs; [ha_ok1] and [ha_ok2] tell that
    the TLVs fulfil the constraints (lengths) of the two passes *)
Record haddr := { ha_addr : addr; ha_ok1 : bool; ha_ok2 : bool; ha_local : option Z; ha_status : option Z; ha_other : option Z }.
(** a HELLO as the RFC 5444 reader shows it: [h_ok] the message TLVs fulfil their
    constraints, [h_active] the interface takes messages of this address length;
    [h_orig] is context->orig_addr, which is also read when the message has no originator *)
Record hello := {
  h_if : Z; h_ok : bool; h_active : bool; h_addrlen : Z; h_hasorig : bool; h_orig : addr; h_v4 : addr; h_mac : addr;
  h_src : addr; h_vtime : Z; h_addrs : list haddr
}.
Definition THIS_IF : Z := 0.
Definition OTHER_IF : Z := 1.
(** nhdp_reader.c:525-535, 819-835: TLV values with their masks, 255 if missing *)
Definition ha_lif (x : haddr) : Z := match ha_local x with Some v => Z.land v 1 | None => 255 end.
Definition ha_lst (x : haddr) : Z := match ha_status x with Some v => Z.land v 3 | None => 255 end.
Definition ha_oth (x : haddr) : Z := match ha_other x with Some v => Z.land v 1 | None => 255 end.

(** nhdp_reader.c:263-274 [_cleanup_error] *)
Definition cleanup_error (s : db) : res db :=
  let c := s_cur s in
  do s <- match c_l c with Some i => link_remove s i | None => Ok s end;
  do s <- match c_n c with Some i => neighbor_remove s i | None => Ok s end;
  Ok (set_cur s {| c_if := c_if c; c_n := None; c_l := None; c_nconf := c_nconf c; c_lconf := c_lconf c;
                   c_heard := c_heard c; c_lost := c_lost c; c_thisif := c_thisif c; c_origblk := c_origblk c |}).

(** nhdp_reader.c:516-607 [_cb_addresstlvs_pass1] *)
Definition pass1_naddr (s : db) (c : cur) (x : haddr) : db * cur :=
  if (ha_lif x =? THIS_IF) || (ha_lif x =? OTHER_IF) then
    match naddr_get s (ha_addr x) with
    | Some na =>
      (upd_n s (na_n na) (fun n => n_set_pc (n_pc n + 1) n),
       if c_nconf c then c
       else match c_n c with
            | None => {| c_if := c_if c; c_n := Some (na_n na); c_l := c_l c; c_nconf := false; c_lconf := c_lconf c;
                         c_heard := c_heard c; c_lost := c_lost c; c_thisif := c_thisif c; c_origblk := c_origblk c |}
            | Some i => if i =? na_n na then c
                        else {| c_if := c_if c; c_n := None; c_l := c_l c; c_nconf := true; c_lconf := c_lconf c;
                                c_heard := c_heard c; c_lost := c_lost c; c_thisif := c_thisif c; c_origblk := c_origblk c |}
            end)
    | None => (s, c)
    end
  else (s, c).
Definition pass1_laddr (s : db) (c : cur) (x : haddr) : db * cur :=
  if ha_lif x =? THIS_IF then
    let '(s, c) :=
      match laddr_get s (c_if c) (ha_addr x) with
      | Some la =>
        (upd_l s (la_l la) (fun l => l_set_pc (l_pc l + 1) l),
         if c_lconf c then c
         else match c_l c with
              | None => {| c_if := c_if c; c_n := c_n c; c_l := Some (la_l la); c_nconf := c_nconf c; c_lconf := false;
                           c_heard := c_heard c; c_lost := c_lost c; c_thisif := c_thisif c; c_origblk := c_origblk c |}
              | Some i => if i =? la_l la then c
                          else {| c_if := c_if c; c_n := c_n c; c_l := None; c_nconf := c_nconf c; c_lconf := true;
                                  c_heard := c_heard c; c_lost := c_lost c; c_thisif := c_thisif c; c_origblk := c_origblk c |}
              end)
      | None => (s, c)
      end in
    (s, {| c_if := c_if c; c_n := c_n c; c_l := c_l c; c_nconf := c_nconf c; c_lconf := c_lconf c;
           c_heard := c_heard c; c_lost := c_lost c; c_thisif := true; c_origblk := c_origblk c |})
  else (s, c).
Definition pass1_addr (h : hello) (s : db) (x : haddr) : db :=
  let c := s_cur s in
  let ob := c_origblk c || (h_hasorig h && addr_eqb (ha_addr x) (h_orig h)) in
  let c := {| c_if := c_if c; c_n := c_n c; c_l := c_l c; c_nconf := c_nconf c; c_lconf := c_lconf c;
              c_heard := c_heard c; c_lost := c_lost c; c_thisif := c_thisif c; c_origblk := ob |} in
  let '(s, c) := pass1_naddr s c x in
  let '(s, c) := pass1_laddr s c x in
  let own := negb (ha_lst x =? 255) && e_own (s_env s) (c_if c) (ha_addr x) in
  let c := {| c_if := c_if c; c_n := c_n c; c_l := c_l c; c_nconf := c_nconf c; c_lconf := c_lconf c;
              c_heard := c_heard c || (own && negb (ha_lst x =? LOST));
              c_lost := c_lost c || (own && (ha_lst x =? LOST));
              c_thisif := c_thisif c; c_origblk := c_origblk c |} in
  set_cur s c.

(** the reader calls the pass for every address and stops at the first one
    whose TLVs break the constraints (result DROP_MESSAGE) *)
Fixpoint pass1 (h : hello) (s : db) (l : list haddr) : db * bool :=
  match l with
  | [] => (s, false)
  | x :: r => if ha_ok1 x then pass1 h (pass1_addr h s x) r else (s, true)
  end.

Definition with_n (c : cur) (n : option Z) : cur :=
  {| c_if := c_if c; c_n := n; c_l := c_l c; c_nconf := c_nconf c; c_lconf := c_lconf c;
     c_heard := c_heard c; c_lost := c_lost c; c_thisif := c_thisif c; c_origblk := c_origblk c |}.
Definition with_l (c : cur) (l : option Z) : cur :=
  {| c_if := c_if c; c_n := c_n c; c_l := l; c_nconf := c_nconf c; c_lconf := c_lconf c;
     c_heard := c_heard c; c_lost := c_lost c; c_thisif := c_thisif c; c_origblk := c_origblk c |}.

(** nhdp_reader.c:352-385 [_handle_originator] *)
Definition handle_originator (s : db) (a : addr) : res db :=
  match neigh_by_orig s a with
  | None => Ok s
  | Some n =>
    if dual_is (c_n (s_cur s)) (n_id n) then Ok s
    else match c_n (s_cur s), c_nconf (s_cur s) with
         | None, false => Ok (set_cur s (with_n (s_cur s) (Some (n_id n))))
         | _, _ => if n_pc n >? 0 then Ok s else set_originator s (n_id n) UNSPEC
         end
  end.

(** nhdp_reader.c:282-349 [_pass2_process_localif] *)
Definition pass2_localif (s : db) (L N : Z) (a : addr) (lif : Z) : res db :=
  do s <-
    (if lif =? THIS_IF then
       match laddr_get s (c_if (s_cur s)) a with
       | None => laddr_add s L a
       | Some la =>
         do l <- get_l s (la_l la);
         let s := upd_l s (la_l la) (l_set_pc (l_pc l - 1)) in
         do s <- (if la_l la =? L then Ok s
                  else do s <- laddr_move s L la;
                       if l_pc l - 1 =? 0 then link_remove s (la_l la) else Ok s);
         Ok (set_la s (upd (is_la (c_if (s_cur s)) a) (la_set_mbr false) (s_la s)))
       end
     else Ok s);
  match naddr_get s a with
  | None => naddr_add s N a
  | Some na =>
    do n <- get_n s (na_n na);
    let s := upd_n s (na_n na) (n_set_pc (n_pc n - 1)) in
    do s <- (if na_n na =? N then Ok s
             else let s := naddr_move s N a in
                  if n_pc n - 1 =? 0 then neighbor_remove s (na_n na) else Ok s);
    let s := set_na s (upd (is_na a) (na_set_mbr false) (s_na s)) in
    Ok (naddr_not_lost s (is_na a))
  end.

(** nhdp_reader.c:615-718 [_cb_addresstlvs_pass1_end], not dropped; the result
    is the link and the neighbor of the second pass *)
Definition pass1_neigh (h : hello) (s : db) : res (db * Z) :=
  match c_n (s_cur s) with
  | None => let '(s, i) := neighbor_add s in Ok (set_cur s (with_n (s_cur s) (Some i)), i)
  | Some i =>
    do _ <- get_n s i;
    Ok (set_na s (upd (fun x => (na_n x =? i) && (binlength (na_addr x) =? h_addrlen h)) (na_set_mbr true) (s_na s)), i)
  end.
Definition pass1_link (s : db) (N : Z) : res (db * Z) :=
  match c_l (s_cur s) with
  | None => do r <- link_add s N (c_if (s_cur s)); Ok (set_cur (fst r) (with_l (s_cur s) (Some (snd r))), snd r)
  | Some i => do _ <- get_l s i; Ok (set_la s (upd (fun x => la_l x =? i) (la_set_mbr true) (s_la s)), i)
  end.
Definition dualstack (h : hello) (s : db) (L N : Z) : res db :=
  if h_hasorig h then
    if negb (a_af (h_v4 h) =? 0) then
      do s <- match neigh_by_orig s (h_v4 h) with Some n2 => n_connect s N (n_id n2) | None => Ok s end;
      match link_by_orig s (c_if (s_cur s)) (h_v4 h) with Some l2 => l_connect s L (l_id l2) | None => Ok s end
    else if a_af (h_orig h) =? AF_INET6 then do s <- n_disconnect s N; l_disconnect s L
    else Ok s
  else Ok s.
Definition pass1_end (h : hello) (s : db) : res (db * Z * Z) :=
  do s <- (if h_hasorig h && negb (c_origblk (s_cur s)) && negb (a_af (h_orig h) =? 0)
           then handle_originator s (h_orig h) else Ok s);
  do r <- pass1_neigh h s;
  let N := snd r in
  do r <- pass1_link (fst r) N;
  let L := snd r in
  let s := upd_l (fst r) L (fun l => l_set_addr (h_src h) (if a_af (h_mac h) =? 0 then l_mac l else h_mac h) l) in
  do s <- (if c_thisif (s_cur s) then Ok s else pass2_localif s L N (h_src h) THIS_IF);
  (* the hysteresis handler writes to the link *)
  do _ <- get_l s L;
  do s <- dualstack h s L N;
  Ok (s, L, N).

(** nhdp_reader.c:811-880 [_cb_addr_pass2_block] *)
Definition pass2_2hop (h : hello) (s : db) (L N : Z) (x : haddr) : res db :=
  if negb (ha_lst x =? 255) || negb (ha_oth x =? 255) then
    if e_own (s_env s) (c_if (s_cur s)) (ha_addr x) then
      (* _process_domainspecific_linkdata writes to neighbor and link *)
      do _ <- get_n s N; do _ <- get_l s L; Ok s
    else if e_any (s_env s) (ha_addr x) then Ok s
    else if (ha_lst x =? SYMMETRIC) || (ha_oth x =? 1) then
      do _ <- get_l s L;
      do s <- (if existsb (is_h L (ha_addr x)) (s_h s) then Ok s else l2hop_add s L (ha_addr x));
      Ok (set_h s (upd (is_h L (ha_addr x))
            (fun y => {| h2_addr := h2_addr y; h2_l := h2_l y; h2_same := ha_lst x =? SYMMETRIC; h2_vt := timer s (h_vtime h) |})
            (s_h s)))
    else
      do _ <- get_l s L;
      l2hops_remove s (is_h L (ha_addr x))
  else Ok s.
Definition pass2_addr (h : hello) (L N : Z) (s : db) (x : haddr) : res db :=
  do s <- (if (ha_lif x =? THIS_IF) || (ha_lif x =? OTHER_IF)
           then pass2_localif s L N (ha_addr x) (ha_lif x) else Ok s);
  pass2_2hop h s L N x.
Fixpoint pass2 (h : hello) (L N : Z) (s : db) (l : list haddr) : res (db * bool) :=
  match l with
  | [] => Ok (s, false)
  | x :: r => if ha_ok2 x then do s <- pass2_addr h L N s x; pass2 h L N s r else Ok (s, true)
  end.

(** nhdp_reader.c:888-990 [_cb_msg_pass2_end], not dropped *)
Definition pass2_leftover (h : hello) (s : db) (L N : Z) : res db :=
  do _ <- get_l s L;
  let s := set_la s (del (fun x => (la_l x =? L) && la_mbr x) (s_la s)) in
  do _ <- get_n s N;
  do _ <- chk_if s (c_if (s_cur s));
  let gone := fun x => (na_n x =? N) && na_mbr x in
  let s' := naddr_set_lost s gone (e_nhold (s_env s) (c_if (s_cur s))) in
  l2hops_remove s' (fun y => (h2_l y =? L) && existsb (fun x => gone x && addr_eqb (na_addr x) (h2_addr y)) (s_na s)).
Definition pass2_symtime (h : hello) (s : db) (L : Z) : res db :=
  let c := s_cur s in
  if c_heard c then update_status (upd_l s L (l_set_sym (timer s (h_vtime h)))) L
  else if c_lost c then
    do l <- get_l s L;
    if active (l_sym l) then
      let s := upd_l s L (l_set_sym None) in
      do l <- get_l s L;
      do st <- calc_status s l;
      Ok (if st =? HEARD then upd_l s L (l_set_vt (timer s (e_lhold (s_env s) (c_if c)))) else s)
    else Ok s
  else Ok s.
Definition pass2_times (h : hello) (s : db) (L : Z) : res db :=
  do l <- get_l s L;
  let t := match l_sym l with
           | Some d => if u64 (d - s_now s) <? h_vtime h then h_vtime h else u64 (d - s_now s)
           | None => h_vtime h
           end in
  let s := upd_l s L (l_set_heard (timer s t)) in
  let t := if l_status l =? PENDING then t else u64 (t + e_lhold (s_env s) (c_if (s_cur s))) in
  if match l_vt l with Some d => s64 t >? d - s_now s | None => true end
  then Ok (upd_l s L (l_set_vt (timer s t))) else Ok s.
Definition pass2_end (h : hello) (s : db) (L N : Z) : res db :=
  do s <- pass2_leftover h s L N;
  do s <- pass2_symtime h s L;
  do s <- pass2_times h s L;
  do s <- set_originator s N (h_orig h);
  update_status s L.

(** nhdp_reader.c:392-492 [_cb_messagetlvs] and the order of the callbacks,
    src/librfc5444/rfc5444_reader.c:1074-1190: a dropped HELLO runs
    [_cleanup_error] in the end callback; when already the message TLVs break
    the constraints, [_cb_messagetlvs] has not run and [_current] is that of
    the HELLO before *)
Definition process_hello (s : db) (h : hello) : res db :=
  if negb (h_ok h) then cleanup_error s
  else if negb (h_active h && existsb (Z.eqb (h_if h)) (s_ifs s)) then cleanup_error (set_cur s cur0)
  else
    let c := {| c_if := h_if h; c_n := None; c_l := None; c_nconf := false; c_lconf := false;
                c_heard := false; c_lost := false; c_thisif := false; c_origblk := false |} in
    let s := set_cur s c in
    let s := set_n s (map (n_set_pc 0) (s_n s)) in
    let s := set_l s (upd (fun l => l_if l =? h_if h) (l_set_pc 0) (s_l s)) in
    let '(s, dropped) := pass1 h s (h_addrs h) in
    if dropped then cleanup_error s
    else
      do r <- pass1_end h s;
      let '(s, L, N) := r in
      do r <- pass2 h L N s (h_addrs h);
      let '(s, dropped) := r in
      if dropped then cleanup_error s else pass2_end h s L N.

(** ** Events *)
Inductive event :=
| EvTime (t : Z)              (* time passes *)
| EvEnv (e : env)             (* own addresses, configuration, link quality change *)
| EvHello (h : hello)
| EvSym (i : Z)               (* timers of link i fire *)
| EvHeard (i : Z)
| EvVtime (i : Z)
| EvNaddr (a : addr)          (* timer of a lost neighbor address *)
| EvL2hop (i : Z) (a : addr)  (* timer of a two-hop address *)
| EvQuality (i : Z)           (* the hysteresis plugin asks for the status, hysteresis_olsrv1.c:239,246 *)
| EvIfDown (i : Z)            (* interface without active address, nhdp_interfaces.c:590-595 *)
| EvIfRemove (i : Z).         (* nhdp_interfaces.c:272-312 nhdp_interface_remove, last user *)

Definition due (s : db) (t : option Z) : bool := match t with Some d => d <=? s_now s | None => false end.
Fixpoint unsym_links (s : db) (ids : list Z) : res db :=
  match ids with
  | [] => Ok s
  | i :: r => do s <- set_unsymmetric s i; unsym_links s r
  end.
Definition if_links (s : db) (i : Z) : list Z := map l_id (filter (fun l => l_if l =? i) (s_l s)).

(** a timer event of a timer that is not due does not happen *)
Definition step (s : db) (ev : event) : res db :=
  match ev with
  | EvTime t => Ok (if s_now s <=? t then set_now s t else s)
  | EvEnv e => Ok (set_env s e)
  | EvHello h => process_hello s h
  | EvSym i => match find (is_l i) (s_l s) with
               | Some l => if due s (l_sym l) then update_status (upd_l s i (l_set_sym None)) i else Ok s
               | None => Ok s
               end
  | EvHeard i => match find (is_l i) (s_l s) with
                 | Some l => if due s (l_heard l) then update_status (upd_l s i (l_set_heard None)) i else Ok s
                 | None => Ok s
                 end
  | EvVtime i => match find (is_l i) (s_l s) with
                 | Some l => if due s (l_vt l) then cb_link_vtime (upd_l s i (l_set_vt None)) i else Ok s
                 | None => Ok s
                 end
  | EvNaddr a => match naddr_get s a with
                 | Some x => if due s (na_lost x) then Ok (naddr_remove s a) else Ok s
                 | None => Ok s
                 end
  | EvL2hop i a => match find (is_h i a) (s_h s) with
                   | Some x => if due s (h2_vt x) then l2hops_remove s (is_h i a) else Ok s
                   | None => Ok s
                   end
  | EvQuality i => match find (is_l i) (s_l s) with Some _ => update_status s i | None => Ok s end
  | EvIfDown i => if existsb (Z.eqb i) (s_ifs s) then unsym_links s (if_links s i) else Ok s
  | EvIfRemove i => if existsb (Z.eqb i) (s_ifs s)
                    then do s <- unsym_links s (if_links s i); Ok (set_ifs s (del (Z.eqb i) (s_ifs s)))
                    else Ok s
  end.

Fixpoint run (s : db) (l : list event) : res db :=
  match l with
  | [] => Ok s
  | e :: r => do s <- step s e; run s r
  end.

(** nhdp_db.c:148-166 [nhdp_db_init] with the interfaces [ifs] *)
Definition init (ifs : list Z) (e : env) : db :=
  {| s_now := 1; s_next := 1; s_ifs := ifs; s_env := e; s_n := []; s_l := []; s_na := []; s_la := []; s_h := [];
     s_setid := 0; s_cur := cur0 |}.
