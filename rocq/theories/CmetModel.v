(** Model of constant link metrics: src/nhdp/constant_metric/constant_metric.c.

    Interface names are compared without case (306) and cut to 15 characters (234, 347):
    a number stands for all equal names, the names are not longer.  Addresses are
    numbers.  An entry of the configuration that can not be converted (342-345) is
    [None].  Memory for entries is there.  One NHDP domain uses the metric, without
    postprocessors (nhdp_domain.c:893-919). *)
From Verif Require Import Base.

Definition any : Z := -1.            (* OS_INTERFACE_ANY, os_interface_linux.h:62 *)
Definition INFINITE : Z := 0xffffff. (* RFC7181_METRIC_INFINITE *)

(** key of the tree: interface and neighbor, [None]: all neighbors *)
Definition key := (Z * option Z)%type.
Definition nb_eqb (a b : option Z) : bool := match a, b with Some x, Some y => x =? y | None, None => true | _, _ => false end.
Definition key_eqb (a b : key) : bool := (fst a =? fst b) && nb_eqb (snd a) (snd b).
Definition table := list (key * Z).
Fixpoint find (t : table) (k : key) : option Z :=
  match t with
  | [] => None
  | (j, c) :: r => if key_eqb j k then Some c else find r k
  end.
(** avl_insert without duplicates: a second entry is not inserted *)
Definition insert (t : table) (k : key) (c : Z) : table := match find t k with Some _ => t | None => t ++ [(k, c)] end.

(** a link; [l_dual]: it has a dualstack partner, whose originator may be unknown *)
Record link := { l_id : Z; l_if : Z; l_orig : option Z; l_dual : option (option Z); l_in : Z }.
Record state := { s_table : table; s_links : list link; s_timer : bool }.

Definition or_else (a b : option Z) : option Z := match a with Some _ => a | None => b end.
(** 264-279: an unknown originator of the partner is the key of all neighbors *)
Definition cost_of (t : table) (l : link) (o : Z) : option Z :=
  let dual i := match l_dual l with Some p => find t (i, p) | None => None end in
  or_else (find t (l_if l, Some o))
  (or_else (dual (l_if l))
  (or_else (find t (any, Some o))
  (or_else (dual any)
  (or_else (find t (l_if l, None))
           (find t (any, None)))))).
(** 244-289 [_cb_set_linkcost], for one link *)
Definition set_linkcost (t : table) (l : link) : link :=
  match l_orig l with
  | None => l
  | Some o => {| l_id := l_id l; l_if := l_if l; l_orig := l_orig l; l_dual := l_dual l; l_in := match cost_of t l o with Some c => c | None => INFINITE end |}
  end.

Inductive op :=
| Config (i : Z) (vals : list (option (option Z * Z)))  (* 316-359: section [i] has changed *)
| AddLink (id i : Z) (o : option Z) (d : option (option Z))
    (* a HELLO makes a new link (218-221); the originator is known at its end *)
| DelLink (id : Z)
| Change (id : Z) (o : option Z) (d : option (option Z)) (* the originator or the partner changes *)
| Fire.                                                 (* the timer, if it runs *)

Definition add_vals (i : Z) (t : table) (vals : list (option (option Z * Z))) : table :=
  fold_left (fun t v => match v with Some (nb, c) => insert t (i, nb) c | None => t end) vals t.
Definition step (o : op) (s : state) : state :=
  match o with
  | Config i vals => {| s_table := add_vals i (filter (fun e => negb (fst (fst e) =? i)) (s_table s)) vals; s_links := s_links s; s_timer := true |}
  | AddLink id i o d => {| s_table := s_table s; s_links := s_links s ++ [{| l_id := id; l_if := i; l_orig := o; l_dual := d; l_in := INFINITE |}]; s_timer := true |}
  | DelLink id => {| s_table := s_table s; s_links := filter (fun l => negb (l_id l =? id)) (s_links s); s_timer := s_timer s |}
  | Change id o d => {| s_table := s_table s; s_links := map (fun l => if l_id l =? id then {| l_id := id; l_if := l_if l; l_orig := o; l_dual := d; l_in := l_in l |} else l) (s_links s); s_timer := s_timer s |}
  | Fire => if s_timer s then {| s_table := s_table s; s_links := map (set_linkcost (s_table s)) (s_links s); s_timer := false |} else s
  end.
Definition init : state := {| s_table := []; s_links := []; s_timer := false |}.
Definition run (os : list op) (s : state) : state := fold_left (fun s o => step o s) os s.
