(** Specification of the registry of metric and MPR algorithms (C77, C78). *)
From Verif Require Import Base StrBase CompModel CompProofs DomModel DomRegModel.

(** Number of domains (with the flooding domain) that use algorithm [k]. *)
Definition users (l : list slot) (k : Z) : Z := zlen (filter (fun s => s_alg s =? k) l).

(** Is algorithm [k] switched on after the calls [log]? *)
Definition on (log : list call) (k : Z) : bool :=
  fold_left (fun b c => match c with
                        | Enable j => if j =? k then true else b
                        | Disable j => if j =? k then false else b end) log false.
(** It is only switched on when off and off when on. *)
Definition alternates (k : Z) (log : list call) : Prop :=
  forall p c q, log = p ++ c :: q ->
    (c = Enable k -> on p k = false) /\ (c = Disable k -> on p k = true).

(** Calls that can happen: algorithms of the program are added, registered
    algorithms are removed, existing domains are configured. *)
Definition valid (r : reg) (o : op) : Prop :=
  match o with
  | AlgAdd k => 1 <= k < zlen (r_algs r)
  | AlgRemove k => In k (r_tree r)
  | DomainAdd => True
  | Configure i _ => 0 <= i < zlen (r_slots r)
  end.
(** ... and an algorithm is only removed when at most one domain uses it, which is
    not the flooding domain. *)
Definition safe (r : reg) (o : op) : Prop :=
  valid r o /\
  match o with
  | AlgRemove k => users (r_slots r) k <= 1 /\ match r_slots r with s :: _ => s_alg s <> k | [] => True end
  | _ => True
  end.
Fixpoint guarded (G : reg -> op -> Prop) (mpr : bool) (r : reg) (ops : list op) : Prop :=
  match ops with
  | [] => True
  | o :: ops' => G r o /\ match step mpr r o with Some r' => guarded G mpr r' ops' | None => True end
  end.

(** All domains have a registered algorithm or the default. *)
Definition registered (r : reg) : Prop := forall s, In s (r_slots r) -> s_alg s = 0 \/ In (s_alg s) (r_tree r).

(** Names that can be told from the special names and fit into the buffers. *)
Definition good_names (default : bytes) (names : list bytes) : Prop :=
  cstr default /\ zlen default <= 15 /\ strcase_eqb default ANY_NAME = false /\
  Forall (fun n => cstr n /\ 1 <= zlen n <= 15 /\ strcase_eqb n NO_NAME = false /\ strcase_eqb n ANY_NAME = false /\
                   strcase_eqb n default = false) names.

(** The algorithm a configured name stands for: the registered one with this name;
    for "*" the first in the order of names; the default when there is none. *)
Definition chosen (r : reg) (nm : bytes) (k : Z) : Prop :=
  (exists n, In k (r_tree r) /\ name_of r k = Some n /\
     (strcase_eqb n nm = true \/
      strcase_eqb nm ANY_NAME = true /\ forall j m, In j (r_tree r) -> name_of r j = Some m -> strcasecmp n m <= 0)) \/
  (k = 0 /\ forall j m, In j (r_tree r) -> name_of r j = Some m -> strcase_eqb m nm = false /\ strcase_eqb nm ANY_NAME = false).
