(** Model of the generation of IPv4 link-local addresses: src/nhdp/auto_ll4/auto_ll4.c,
    for one NHDP interface.

    An IPv4 address is a number; an address of an interface has a prefix length
    (os_interface.h:203-211, key of the tree: the prefixed address).  What the system
    and the neighborhood are like is part of the state, random numbers and the success of
    a change are part of the operations.  Not modelled: timers (369-374, 399-404, 429-434, 798-804: the
    operation [Update] is their callback), registration of interfaces, several changes
    under way at once. *)
From Verif Require Import Base.

(** addresses of neighbors: of NHDP links, IPv4 or IPv6 *)
Inductive naddr := V4 (a : Z) | V6 (k : bytes).

(** 720-748 [_calculate_host_part], in host byte order.  [sgn]: type char is signed. *)
Definition char_value (sgn : bool) (b : Z) : Z := if sgn && (128 <=? b) then b - 256 else b.
Definition hash_step (sgn : bool) (h b : Z) : Z :=
  let h := u32 (h + char_value sgn b) in
  let h := u32 (h + u32 (Z.shiftl h 10)) in
  Z.lxor h (Z.shiftr h 6).
Definition hash_end (h : Z) : Z :=
  let h := u32 (h + u32 (Z.shiftl h 3)) in
  let h := Z.lxor h (Z.shiftr h 11) in
  u32 (h + u32 (Z.shiftl h 15)).
Definition host_number (n : Z) : Z := n mod (254 * 256) + 256.
Definition host_part (sgn : bool) (key : bytes) : Z := host_number (hash_end (fold_left (hash_step sgn) key 0)).

(** netaddr.c:313-357 with 169.254.0.0/16 and two bytes; netaddr.c:862-867 *)
Definition ll_base : Z := 0xa9fe0000.
Definition ll_addr (host : Z) : Z := ll_base + host.
Definition is_ll (a : Z) : bool := a / 65536 =? 0xa9fe.

(** 685-712 [_is_address_collision], 652-677 [_nhdp_if_has_collision] *)
Definition collision (sgn : bool) (a : Z) (n : naddr) : bool :=
  match n with V4 b => a =? b | V6 k => a mod 65536 =? host_part sgn k end.
Definition has_collision (sgn : bool) (neigh : list naddr) (a : option Z) : bool :=
  match a with None => true | Some a => existsb (collision sgn a) neigh end.

(** the interface: up, loopback, its IPv4 addresses with prefix lengths in the order of
    the tree, its IPv6 link-local address; addresses of the neighborhood *)
Record env := { e_up : bool; e_loop : bool; e_addrs : list (Z * Z); e_v6 : option bytes; e_neigh : list naddr }.
(** 73-97 [struct _nhdp_if_autoll4]; [a_set]: address of the last change *)
Record data := { a_active : bool; a_gen : bool; a_addr : option Z; a_set : option Z }.
Inductive command := Set_addr (a : Z) | Unset_addr (a : Z).

(** 580-613 [_get_current_if_ipv4_addresscount]: the link-local address *)
Fixpoint current (l : list (Z * Z)) (mine : option Z) (found : option Z) : option Z :=
  match l with
  | [] => found
  | (a, _) :: r =>
      if is_ll a then (if match mine with Some m => a =? m | None => false end then Some a else current r mine (Some a))
      else current r mine found
  end.
Definition same (a b : option Z) : bool := match a, b with Some x, Some y => x =? y | None, None => true | _, _ => false end.

(** 620-642 [_commit_address] *)
Definition commit (d : data) (a : Z) (set : bool) : data * option command :=
  ({| a_active := a_active d; a_gen := set; a_addr := a_addr d; a_set := Some a |}, Some (if set then Set_addr a else Unset_addr a)).
Definition with_addr (d : data) (a : option Z) : data := {| a_active := a_active d; a_gen := a_gen d; a_addr := a; a_set := a_set d |}.
(** 511-519: random addresses until one is free; [None]: no random data *)
Fixpoint roll (sgn : bool) (neigh : list naddr) (a : option Z) (rnds : list Z) : option (option Z) * option Z :=
  if has_collision sgn neigh a then
    match rnds with
    | [] => (None, a)
    | r :: t => roll sgn neigh (Some (ll_addr (host_number r))) t
    end
  else (Some a, a).
(** 545-568 [_generate_default_address] *)
Definition default_addr (sgn : bool) (v6 : option bytes) : option Z := match v6 with Some k => Some (ll_addr (host_part sgn k)) | None => None end.

(** 442-538 [_cb_update_timer] *)
Definition update (sgn : bool) (rnds : list Z) (e : env) (d : data) : data * option command :=
  if e_loop e || negb (e_up e) then (d, None)
  else
    let count := zlen (e_addrs e) in
    let cur := current (e_addrs e) (a_addr d) None in
    if negb (a_active d) then
      match cur with
      | Some c => if a_gen d && (count =? 1) && same cur (a_addr d) then commit d c false else (d, None)
      | None => (d, None)
      end
    else if 1 <? count then
      match cur with
      | Some c => if a_gen d && same cur (a_addr d) then commit d c false else (d, None)
      | None => (d, None)
      end
    else if (count =? 1) && match cur with None => true | _ => false end then (d, None)
    else
      let a := if count =? 1 then cur else a_addr d in
      let a := match a with None => default_addr sgn (e_v6 e) | _ => a end in
      match roll sgn (e_neigh e) a rnds with
      | (None, a) => (with_addr d a, None)
      | (Some a, _) =>
          let d := with_addr d a in
          if same a cur then (d, None)
          else match cur with
               | Some c => commit d c false
               | None => match a with Some x => commit d x true | None => (d, None) end
               end
      end.

(** the operating system: prefix length 16 (638); a change fails when the address with
    this prefix length exists already or does not exist *)
Fixpoint insert (p : Z * Z) (l : list (Z * Z)) : list (Z * Z) :=
  match l with
  | [] => [p]
  | q :: r => if (fst p <? fst q) || ((fst p =? fst q) && (snd p <? snd q)) then p :: l else if (fst p =? fst q) && (snd p =? snd q) then l else q :: insert p r
  end.
Definition without (p : Z * Z) (l : list (Z * Z)) : list (Z * Z) := filter (fun q => negb ((fst p =? fst q) && (snd p =? snd q))) l.
Definition with_addrs (e : env) (l : list (Z * Z)) : env := {| e_up := e_up e; e_loop := e_loop e; e_addrs := l; e_v6 := e_v6 e; e_neigh := e_neigh e |}.
Definition apply (c : command) (e : env) : env :=
  match c with Set_addr a => with_addrs e (insert (a, 16) (e_addrs e)) | Unset_addr a => with_addrs e (without (a, 16) (e_addrs e)) end.

Inductive op :=
| Update (rnds : list Z) (ok : bool)
| UserAdd (a plen : Z)
| UserDel (a plen : Z)
| Neighbors (l : list naddr)
| Active (b : bool)
| Link (up : bool) (v6 : option bytes)
(* 284-311 [_cb_remove_nhdp_interface] *)
| Shutdown.
Definition world := (env * data)%type.
Definition init (loop : bool) : world :=
  ({| e_up := false; e_loop := loop; e_addrs := []; e_v6 := None; e_neigh := [] |}, {| a_active := false; a_gen := false; a_addr := None; a_set := None |}).
Definition step (sgn : bool) (o : op) (w : world) : world * option command :=
  let '(e, d) := w in
  match o with
  | Update rnds ok =>
      let '(d', c) := update sgn rnds e d in
      ((match c with Some c => if ok then apply c e else e | None => e end, d'), c)
  | UserAdd a plen => ((with_addrs e (insert (a, plen) (e_addrs e)), d), None)
  | UserDel a plen => ((with_addrs e (without (a, plen) (e_addrs e)), d), None)
  | Neighbors l => (({| e_up := e_up e; e_loop := e_loop e; e_addrs := e_addrs e; e_v6 := e_v6 e; e_neigh := l |}, d), None)
  | Active b => ((e, {| a_active := b; a_gen := a_gen d; a_addr := a_addr d; a_set := a_set d |}), None)
  | Link up v6 => (({| e_up := up; e_loop := e_loop e; e_addrs := e_addrs e; e_v6 := v6; e_neigh := e_neigh e |}, d), None)
  | Shutdown =>
      let d' := {| a_active := false; a_gen := a_gen d; a_addr := a_addr d; a_set := a_set d |} in
      match a_set d with
      | Some a => if a_active d && a_gen d then ((apply (Unset_addr a) e, d'), Some (Unset_addr a)) else ((e, d'), None)
      | None => ((e, d'), None)
      end
  end.
Fixpoint run (sgn : bool) (os : list op) (w : world) : world * list (op * option command) :=
  match os with
  | [] => (w, [])
  | o :: r => let '(w1, c) := step sgn o w in let '(w2, t) := run sgn r w1 in (w2, (o, c) :: t)
  end.
