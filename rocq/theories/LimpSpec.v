(** What the import of routes as attached networks means. *)
From Verif Require Import Base LimpModel.

(** the routes of the kernel after the events [os] (last one first): a route replaces one with the same key, table and metric *)
Fixpoint current (os : list op) (r : route) : Prop :=
  match os with
  | [] => False
  | Event x true :: t => r = x \/ (current t r /\ ~ (r_key r = r_key x /\ r_table r = r_table x /\ r_metric r = r_metric x))
  | Event x false :: t => current t r /\ r <> x
  | _ :: t => current t r
  end.
(** the sections in force (last change first) *)
Fixpoint live (os : list op) (n : Z) (c : conf) : Prop :=
  match os with
  | [] => False
  | Section a p :: t => (a = n /\ p = Some c) \/ (a <> n /\ live t n c)
  | _ :: t => live t n c
  end.
(** routes to usual destinations that are not routes of the router itself *)
Definition importable (e : env) (r : route) : Prop :=
  r_special r = false /\ r_unicast r = true /\ ~ In (r_table r, r_proto r) (e_own e) /\ e_mesh e (r_if r) = false.
Definition any_or (c x : Z) : Prop := c = -1 \/ c = x.
Definition meant (c : conf) (r : route) : Prop :=
  any_or (c_plen c) (r_plen r) /\ c_accepts c (r_key r) = true /\ any_or (c_table c) (r_table r) /\ any_or (c_proto c) (r_proto r) /\
  any_or (c_dist c) (r_metric r) /\ (c_if c = 0 \/ (r_if r <> 0 /\ c_if c = r_if r)).

(** the networks that are attached are the destinations of the current routes a section means *)
Definition attached (s : st) (d k : Z) : Prop := exists m x, In (d, k, m, x) (s_ann s).
Definition exact (e : env) (os : list op) (s : st) : Prop := forall d k, In d (e_doms e) ->
  (attached s d k <-> exists r n c, current (rev os) r /\ r_key r = k /\ importable e r /\ live (rev os) n c /\ meant c r /\ any_or (c_domain c) d).

(** ** Conditions *)
Definition is_event (o : op) : Prop := match o with Event _ _ => True | _ => False end.
(** the sections are there before the routes and stay (last one first) *)
Fixpoint sections_first (os : list op) : Prop :=
  match os with
  | [] => True
  | Section _ p :: t => p <> None /\ (forall o, In o t -> ~ is_event o) /\ sections_first t
  | _ :: t => sections_first t
  end.
(** no two routes for the same destination at the same time; only routes that are there are removed *)
Fixpoint alone (os : list op) : Prop :=
  match os with
  | [] => True
  | Event r true :: t => (forall x, current t x -> r_key x = r_key r -> x = r) /\ alone t
  | Event r false :: t => current t r /\ alone t
  | _ :: t => alone t
  end.
Definition no_aging (os : list op) : Prop := forall n c, In (Section n (Some c)) os -> c_aging c = 0.
(** neither a route nor a section is removed *)
Definition no_removal (os : list op) : Prop := forall o, In o os -> match o with Event _ false | Section _ None => False | _ => True end.

(** the network [k] of the section [c] in a domain of the section *)
Definition of_section (e : env) (c : conf) (k : Z) (x : Z * Z * Z * Z) : Prop :=
  match x with (d, k', _, _) => k' = k /\ In d (e_doms e) /\ any_or (c_domain c) d end.
(** the distance announced for a route *)
Definition distance (r : route) : Z := Z.max 1 (Z.min 255 (r_metric r)).
