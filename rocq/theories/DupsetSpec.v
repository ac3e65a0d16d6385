(** Reference behaviour of duplicate detection for one sender: it has unbounded
    memory and uses unwrapped positions instead of wrapped sequence numbers. *)
From Verif Require Import Base DupsetModel.

Definition width (t : dup_type) : Z :=
  match t with BIT8 => 2 ^ 8 | BIT16 => 2 ^ 16 | BIT32 => 2 ^ 32 | BIT64 => 2 ^ 64 end.

(** Signed distance of [s] from [v] on the circle of size [w], in [-w/2, w/2). *)
Definition circ_dist (w s v : Z) : Z :=
  let d := (s - v) mod w in if d <? w / 2 then d else d - w.

(** newest accepted position, all accepted positions, number of too old tries *)
Record refstate := { r_top : Z; r_seen : list Z; r_old : Z }.

Definition inb (x : Z) (l : list Z) : bool := existsb (Z.eqb x) l.

Definition ref_add (w : Z) (st : refstate) (s : Z) : dup_result * refstate :=
  let p := r_top st + circ_dist w s (r_top st) in
  if p =? r_top st then (CURRENT, st)
  else if p <? r_top st - 31 then
    if r_old st + 1 >? 8 then (NEWEST, {| r_top := p; r_seen := [p]; r_old := 0 |})
    else (TOO_OLD, {| r_top := r_top st; r_seen := r_seen st; r_old := r_old st + 1 |})
  else if inb p (r_seen st) then (DUPLICATE, {| r_top := r_top st; r_seen := r_seen st; r_old := 0 |})
  else if p <? r_top st then (NEW, {| r_top := r_top st; r_seen := p :: r_seen st; r_old := 0 |})
  else (NEWEST, {| r_top := p; r_seen := p :: r_seen st; r_old := 0 |}).

(** State after the first number of a sender. *)
Definition ref_first (s : Z) : refstate := {| r_top := s; r_seen := [s]; r_old := 0 |}.

Fixpoint ref_run (w : Z) (st : refstate) (ss : list Z) : list dup_result * refstate :=
  match ss with
  | [] => ([], st)
  | s :: ss' =>
    let (r, st') := ref_add w st s in
    let (rs, st'') := ref_run w st' ss' in (r :: rs, st'')
  end.

(** The implementation run on one sender. *)
Fixpoint impl_run (ds : dset) (e : dentry) (ss : list Z) : list dup_result * dentry :=
  match ss with
  | [] => ([], e)
  | s :: ss' =>
    let (r, e') := dup_test ds e s true in
    let (rs, e'') := impl_run ds e' ss' in (r :: rs, e'')
  end.
Definition impl_first (s : Z) : dentry := {| de_history := 1; de_current := s; de_too_old := 0 |}.
