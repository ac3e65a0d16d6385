(** Specification of layer-2 values (C91-C95), independent of how the code
    computes them. *)
From Verif Require Import Base NetaddrModel StrBase StringModel L2DataModel NetaddrSpec.

(** ** C91: who owns a value *)

(** a write: origin and value *)
Notation write := (Z * Z)%type.

(** [o] and [v] are the owner and the value after the writes [ws]: the owner is
    the first writer of the highest priority, the value is what it wrote last *)
Definition last_of (o : Z) (ws : list write) (d : Z) : Z :=
  fold_left (fun a w => if fst w =? o then snd w else a) ws d.
Definition decided (prio : Z -> Z) (ws : list write) (o v : Z) : Prop :=
  exists before v0 after, ws = before ++ (o, v0) :: after /\
    (forall w, In w before -> prio (fst w) < prio o) /\
    (forall w, In w after -> prio (fst w) <= prio o) /\
    v = last_of o after v0.

(** the reading of a data object: what its user sees *)
Definition reading (d : data) : option (meta * Z * Z) :=
  match d_org d, d_meta d with Some o, Some m => Some (m, d_val d, o) | _, _ => None end.

(** a history of writes, with metadata [m] (None: NULL, use the existing one) *)
Fixpoint write_all (prio : Z -> Z) (d : data) (m : option meta) (ws : list write) : option data :=
  match ws with
  | [] => Some d
  | (o, v) :: ws' => match data_set prio d o m v with None => None | Some (_, d') => write_all prio d' m ws' end
  end.

(** ** C92: numbers and scales *)

Definition is_s64 (z : Z) : Prop := -9223372036854775808 <= z < 9223372036854775808.
(** [w] counted in units of 1/sw is the quantity [v] counted in units of 1/sv *)
Definition same_quantity (v sv w sw : Z) : Prop := v * sw = w * sv.
(** ... or the next smaller multiple of the coarser unit *)
Definition rounded_down (v sv w sw : Z) : Prop := w * sv <= v * sw < (w + 1) * sv.

(** ** C94: neighbor keys *)
Definition key_ok (k : nkey) : Prop :=
  na_wf (k_addr k) /\ canonical (k_addr k) /\ is_mac (k_addr k) = true /\ na_plen (k_addr k) <= maxprefix (k_addr k) /\
  0 <= k_len k <= 16 /\
  exists id, all_bytes id /\ zlen id = k_len k /\ k_lid k = id ++ repeat 0 (Z.to_nat (16 - k_len k)).

(** a history of requests for link ids: the keys handed out *)
Fixpoint lids (t : list (netaddr * Z)) (rs : list (lorigin * netaddr)) : list (option nkey) :=
  match rs with
  | [] => []
  | (o, m) :: rs' => match generate_lid t o m with
                     | None => None :: lids t rs'
                     | Some (k, t') => Some k :: lids t' rs'
                     end
  end.
(** number of requests for the same address among [rs] *)
Definition requests (m : netaddr) (rs : list (lorigin * netaddr)) : Z :=
  zlen (filter (fun r => lo_lid (fst r) && na_eqb (snd r) m) rs).
