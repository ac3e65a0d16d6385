(** What users of the layer-2 database rely on. *)
From Verif Require Import Base NetaddrModel StrBase L2DataModel L2DataSpec L2DbModel.

(** * What the database contains, as the get functions of the API tell *)
Definition dst_at (d : db) n k a : option Z := match ne_at d n k with Some ne => tfind na_eqb (ne_dst ne) a | None => None end.
Definition ip_at (d : db) n k a : option Z := match ne_at d n k with Some ne => tfind na_eqb (ne_ips ne) a | None => None end.
Definition peer_at (d : db) n a : option Z := match net_at d n with Some nt => tfind na_eqb (nt_peers nt) a | None => None end.
Definition has (d : db) (x : obj) : Prop :=
  match x with
  | ONet n => net_at d n <> None
  | ONeigh n k => ne_at d n k <> None
  | ODst n k a => dst_at d n k a <> None
  | OIp n k a => ip_at d n k a <> None
  | OPeer n a => peer_at d n a <> None
  end.
(** metadata, value and owner of a data object *)
Definition value_at (d : db) (p : place) (i : Z) : option (meta * Z * Z) :=
  match arr_at d p with Some l => match zget l i with Some x => reading x | None => None end | None => None end.

(** * A listener
    It keeps a list of the objects it was told about.  It is misled ([None]) by the addition of
    an object it knows or whose network or neighbor it does not know, by the
    removal of an object it does not know or of which it knows parts, and by the
    change of an object it does not know. *)
Definition parent (x : obj) : option obj :=
  match x with
  | ONet _ => None
  | ONeigh n _ | OPeer n _ => Some (ONet n)
  | ODst n k _ | OIp n k _ => Some (ONeigh n k)
  end.
Definition obj_eqb (x y : obj) : bool :=
  match x, y with
  | ONet n, ONet m => str_eqb n m
  | ONeigh n k, ONeigh m j => str_eqb n m && key_eqb k j
  | ODst n k a, ODst m j b => str_eqb n m && key_eqb k j && na_eqb a b
  | OIp n k a, OIp m j b => str_eqb n m && key_eqb k j && na_eqb a b
  | OPeer n a, OPeer m b => str_eqb n m && na_eqb a b
  | _, _ => false
  end.
Definition knows (l : list obj) (x : obj) : bool := existsb (obj_eqb x) l.
Definition part_of (x y : obj) : bool := match parent y with Some p => obj_eqb p x | None => false end.
Definition hear (l : list obj) (e : kind * obj) : option (list obj) :=
  let x := snd e in
  match fst e with
  | Added => if negb (knows l x) && match parent x with Some p => knows l p | None => true end then Some (x :: l) else None
  | Removed => if knows l x && negb (existsb (part_of x) l) then Some (filter (fun y => negb (obj_eqb x y)) l) else None
  | Changed => if knows l x then Some l else None
  end.
Fixpoint listen (l : list obj) (es : list (kind * obj)) : option (list obj) :=
  match es with [] => Some l | e :: es' => match hear l e with None => None | Some l' => listen l' es' end end.

(** networks have names that fit *)
Definition short_op (c : op) : Prop := match c with NetAdd n => zlen n <= 15 | _ => True end.

(** * What belongs to an origin *)
(** the neighbor has something of an origin that fulfills [P] *)
Definition neigh_of (P : Z -> Prop) (d : db) n k : Prop :=
  (exists a o, dst_at d n k a = Some o /\ P o) \/ (exists a o, ip_at d n k a = Some o /\ P o) \/
  (exists i m v o, value_at d (PNeigh n k) i = Some (m, v, o) /\ P o).
(** the network itself has values of an origin that fulfills [P] *)
Definition netdata_of (P : Z -> Prop) (d : db) n : Prop :=
  (exists i m v o, value_at d (PNet n) i = Some (m, v, o) /\ P o) \/
  (exists i m v o, value_at d (PDef n) i = Some (m, v, o) /\ P o).
