(** Model of the originator addresses of OLSRv2: their choice
    (src/olsrv2/olsrv2/olsrv2.c:578-690, _get_addr_priority, _update_originator
    and _cb_if_event) and the set of former originators
    (src/olsrv2/olsrv2/olsrv2_originator.c:83-258), with the copy NHDP has
    (src/nhdp/nhdp/nhdp.c:246-290).

    An address is a number with a family ([A4]/[A6]); the access list and the
    test for link-local addresses are parameters.  An interface is its loopback
    flag with its addresses, interfaces and addresses in the order of their
    trees.  Allocation succeeds.  Timers may fire late (at any time not before
    their clock, C13). *)
From Verif Require Import Base TimerModel FloodModel.

Inductive addr := A4 (a : Z) | A6 (a : Z) | AX (a : Z).
Inductive fam := V4 | V6.
(** netaddr_cmp of addresses without prefix *)
Definition aeqb (x y : addr) : bool :=
  match x, y with A4 a, A4 b | A6 a, A6 b | AX a, AX b => a =? b | _, _ => false end.
(** netaddr_get_address_family(a) == f *)
Definition isfam (f : fam) (a : addr) : bool :=
  match f, a with V4, A4 _ | V6, A6 _ => true | _, _ => false end.
Record iface := { i_loop : bool; i_addrs : list addr }.

(** the originators ([None]: AF_UNSPEC), the copies of NHDP, the set of former
    ones with the clock of their timer *)
Record ost := { o_now : Z; o_v4 : option addr; o_v6 : option addr; n_v4 : option addr; n_v6 : option addr; o_old : list (addr * Z) }.
Definition ost0 : ost := {| o_now := 0; o_v4 := None; o_v6 := None; n_v4 := None; n_v6 := None; o_old := [] |}.
(** olsrv2_originator.c:118-127 [olsrv2_originator_get] *)
Definition orig_get (f : fam) (s : ost) : option addr := match f with V4 => o_v4 s | V6 => o_v6 s end.
(** nhdp.c:281-290 [nhdp_get_originator] *)
Definition nhdp_get (f : fam) (s : ost) : option addr := match f with V4 => n_v4 s | V6 => n_v6 s end.

Fixpoint ofind (a : addr) (l : list (addr * Z)) : option Z :=
  match l with [] => None | (b, t) :: l' => if aeqb b a then Some t else ofind a l' end.
Definition odel (a : addr) (l : list (addr * Z)) : list (addr * Z) := filter (fun e => negb (aeqb (fst e) a)) l.

Definition is_orig (o : option addr) (a : addr) : bool := match o with Some b => aeqb b a | None => false end.
(** olsrv2_originator.c:133-142 [olsrv2_originator_is_local] *)
Definition is_local (s : ost) (a : addr) : bool :=
  if is_orig (o_v4 s) a then true else if is_orig (o_v6 s) a then true else
  match ofind a (o_old s) with Some _ => true | None => false end.

(** olsrv2_originator.c:176-201 [_remember_removed_originator]; olsrv2.h:88-91:
    the validity is twice the one of the TC messages, modulo 2^64 *)
Definition remember (a : addr) (tcv : Z) (s : ost) : list (addr * Z) :=
  (a, deadline (o_now s) (u64 (tcv * 2))) :: odel a (o_old s).

(** olsrv2_originator.c:213-237 [_set_originator] and 151-159
    [olsrv2_originator_set]; other families are ignored *)
Definition orig_set (a : addr) (tcv : Z) (s : ost) : ost :=
  match a with
  | A4 _ =>
      let old := match o_v4 s with Some b => remember b tcv s | None => o_old s end in
      {| o_now := o_now s; o_v4 := Some a; o_v6 := o_v6 s; n_v4 := Some a; n_v6 := n_v6 s; o_old := odel a old |}
  | A6 _ =>
      let old := match o_v6 s with Some b => remember b tcv s | None => o_old s end in
      {| o_now := o_now s; o_v4 := o_v4 s; o_v6 := Some a; n_v4 := n_v4 s; n_v6 := Some a; o_old := odel a old |}
  | AX _ => s
  end.

Section O.
Context (acl linklocal : addr -> bool).

(** olsrv2.c:578-618 [_get_addr_priority] *)
Definition addr_priority (a : addr) : Z :=
  if negb (acl a) then 0 else
  match a with
  | A4 _ | A6 _ => if linklocal a then 1 else 2
  | AX _ => 0
  end.

(** olsrv2.c:653-672: one address; the accumulator is old_priority, new_priority
    and new_originator *)
Definition visit (f : fam) (cur : option addr) (loop : bool) (acc : Z * Z * option addr) (a : addr) : Z * Z * option addr :=
  let '(oldp, newp, best) := acc in
  if isfam f a then
    let p := addr_priority a * 4 in
    if p =? 0 then acc else
    let p := if loop then p + 2 else p in
    let oldp := if is_orig cur a then p + 1 else oldp in
    if (p >? oldp) && (p >? newp) then (oldp, p, Some a) else (oldp, newp, best)
  else acc.
(** olsrv2.c:648-673: the loops over the interfaces and their addresses *)
Definition scan (f : fam) (cur : option addr) (ifs : list iface) : Z * Z * option addr :=
  fold_left (fun acc i => fold_left (visit f cur (i_loop i)) (i_addrs i) acc) ifs (0, 0, None).
(** olsrv2.c:624-678 [_update_originator] *)
Definition update_originator (f : fam) (ifs : list iface) (tcv : Z) (s : ost) : ost :=
  let '(oldp, newp, best) := scan f (orig_get f s) ifs in
  if newp >? oldp then match best with Some a => orig_set a tcv s | None => s end else s.
(** olsrv2.c:685-690 [_cb_if_event]; also 708-709, after a change of the configuration *)
Definition if_event (ifs : list iface) (tcv : Z) (s : ost) : ost :=
  update_originator V6 ifs tcv (update_originator V4 ifs tcv s).

Inductive oop := Event (ifs : list iface) (tcv : Z) | OWait (d : Z) | Forget (a : addr).
(** olsrv2_originator.c:243-249 [_cb_originator_entry_vtime], [_remove_originator_entry] *)
Definition forget (a : addr) (s : ost) : ost :=
  match ofind a (o_old s) with
  | Some t => if t <=? o_now s then {| o_now := o_now s; o_v4 := o_v4 s; o_v6 := o_v6 s; n_v4 := n_v4 s; n_v6 := n_v6 s; o_old := odel a (o_old s) |} else s
  | None => s
  end.
Definition ostep (o : oop) (s : ost) : ost :=
  match o with
  | Event ifs tcv => if_event ifs tcv s
  | OWait d => {| o_now := o_now s + Z.max 0 d; o_v4 := o_v4 s; o_v6 := o_v6 s; n_v4 := n_v4 s; n_v6 := n_v6 s; o_old := o_old s |}
  | Forget a => forget a s
  end.
Definition orun (os : list oop) (s : ost) : ost := fold_left (fun s o => ostep o s) os s.
End O.
