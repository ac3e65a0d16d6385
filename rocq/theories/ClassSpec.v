(** What the user of an object class relies on. *)
From Verif Require Import Base ListModel ClassModel.

(** blocks handed out and not given back, after an operation with result [r] *)
Definition live_step (live : list Z) (o : cop) (r : cres) : list Z :=
  match o, r with
  | OMalloc _, RBlock (Some a) _ => a :: live
  | OFree a _, _ => filter (fun x => negb (x =? a)) live
  | _, _ => live
  end.
(** what callers and calloc have to stick to: blocks are freed once, used only while
    they are live and inside their size, calloc does not return an address in use *)
Definition cop_ok (s : cstate) (live : list Z) (o : cop) : Prop :=
  match o with
  | OMalloc r => forall a, r = Some a -> mem s a = None
  | OFree a links => In a live /\ length links = 16%nat
  | OWrite a off v => In a live /\ 0 <= off < ctotal s
  | OExtAdd _ | OExtRemove _ => True
  end.
(** a legal run; the trace (newest first) holds state before, operation and result *)
Inductive crun (s0 : cstate) : cstate -> list Z -> list (cop * cres) -> Prop :=
| crun_init : crun s0 s0 [] []
| crun_step s live tr o s' r :
    crun s0 s live tr -> cop_ok s live o -> cstep s o = Some (s', r) ->
    crun s0 s' (live_step live o r) ((o, r) :: tr).

(** number of allocations from calloc, and from the pool *)
Definition n_fresh (tr : list (cop * cres)) : Z :=
  zlen (filter (fun x => match snd x with RBlock (Some _) false => true | _ => false end) tr).
Definition n_recycled (tr : list (cop * cres)) : Z :=
  zlen (filter (fun x => match snd x with RBlock (Some _) true => true | _ => false end) tr).

(** memory ranges of the registered extensions *)
Definition range_of (s : cstate) (e : Z) : Z * Z := (coffset s e, coffset s e + cesize s e).
Definition disjoint (r1 r2 : Z * Z) : Prop := snd r1 <= fst r2 \/ snd r2 <= fst r1.

(** how much memory all extension registrations of a history ask for *)
Definition asked (esize : Z -> Z) (tr : list (cop * cres)) : Z :=
  fold_right (fun x n => n + match fst x with OExtAdd e => esize e + 16 | _ => 0 end) 0 tr.
