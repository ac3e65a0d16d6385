(** Model of the choice of the address families in which an interface floods messages:
    [nhdp_interface_update_status] of src/nhdp/nhdp/nhdp_interfaces.c and [_forwarding_selector] of
    src/nhdp/nhdp/nhdp.c, on the database of NhdpModel.v.

    Simplifications: the flags are computed from the database when they are read; the code computes them
    at the end of every HELLO and whenever a link becomes symmetric or is so no longer
    (nhdp_reader.c:980, nhdp_db.c:844-846).  Counters are unbounded. *)
From Verif Require Import Base NhdpModel.

(** nhdp_interfaces.c:149-175: ipv4_only, ipv6_only, dualstack *)
Record tally := { t_v4 : Z; t_v6 : Z; t_dual : Z }.
Definition count (s : db) (l : link) (t : tally) : res tally :=
  if negb (l_status l =? SYMMETRIC) then Ok t
  else
    do n <- get_n s (l_n l);
    let af := a_af (n_orig n) in
    Ok (if active (l_dual l) then
          if af =? AF_INET then {| t_v4 := t_v4 t; t_v6 := t_v6 t; t_dual := t_dual t + 1 |} else t
        else if af =? AF_INET then {| t_v4 := t_v4 t + 1; t_v6 := t_v6 t; t_dual := t_dual t |}
        else if af =? AF_INET6 then {| t_v4 := t_v4 t; t_v6 := t_v6 t + 1; t_dual := t_dual t |}
        else t).
Fixpoint counts (s : db) (ls : list link) (t : tally) : res tally :=
  match ls with
  | [] => Ok t
  | l :: r => do t <- count s l t; counts s r t
  end.
(** nhdp_interfaces.h:116-130: use_ipv4_for_flooding, use_ipv6_for_flooding, dualstack_af_type *)
Record flags := { f_v4 : bool; f_v6 : bool; f_dual : Z }.
(** nhdp_interfaces.c:146-199 [nhdp_interface_update_status] *)
Definition update_flags (s : db) (i : Z) : res flags :=
  do t <- counts s (filter (fun l => l_if l =? i) (s_l s)) {| t_v4 := 0; t_v6 := 0; t_dual := 0 |};
  Ok {| f_v4 := t_v4 t >? 0; f_v6 := (t_v6 t >? 0) || ((t_v4 t =? 0) && (t_dual t >? 0));
        f_dual := if t_dual t >? 0 then if t_v4 t =? 0 then AF_INET6 else if t_v6 t =? 0 then AF_INET else 0 else 0 |}.
(** the multicast target of an interface for a family, or another target of it *)
Inductive target := Multicast4 (i : Z) | Multicast6 (i : Z) | Unicast (i : Z).
(** nhdp.c:325-364 [_forwarding_selector] *)
Definition selector (s : db) (t : target) : res bool :=
  match t with
  | Unicast _ => Ok false
  | Multicast4 i => if existsb (Z.eqb i) (s_ifs s) then do f <- update_flags s i; Ok (f_v4 f || (f_dual f =? AF_INET)) else Ok false
  | Multicast6 i => if existsb (Z.eqb i) (s_ifs s) then do f <- update_flags s i; Ok (f_v6 f || (f_dual f =? AF_INET6)) else Ok false
  end.
