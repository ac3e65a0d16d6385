(** Model of the registry of metric and MPR algorithms of
    src/nhdp/nhdp/nhdp_domain.c.

    The code for metrics ([nhdp_domain_metric_add], [_apply_metric], ...) and for
    MPRs ([nhdp_domain_mpr_add], [_apply_mpr], ...) is the same except for two
    points: an added MPR algorithm is offered to the domains without one
    (nhdp_domain.c:263-270), and the flooding domain can only have an MPR
    algorithm.  One model serves both ([mpr] is true for MPRs).

    An algorithm is its position in a list of all algorithm structures of the
    program; 0 is the default ([_no_metric], [_everyone_mprs]).  All but the
    default have enable and disable callbacks; the log has the calls.  Domains are
    positions in a list of users; 0 is the flooding domain.  [None] is a use of
    something that does not exist. *)
From Verif Require Import Base StrBase CompModel DomModel.

(** nhdp_domain.h:93-185: name and [_refcount] of an algorithm *)
Record alg := mkAlg { a_name : bytes; a_ref : Z }.
(** nhdp_domain.h:227-262: [metric_name] and [metric] (or mpr) of a domain *)
Record slot := mkSlot { s_name : bytes; s_alg : Z }.
Inductive call := Enable (k : Z) | Disable (k : Z).

(** [r_tree]: the registered algorithms ([_domain_metrics], [_domain_mprs]) in the
    order of the tree (C01-C04) *)
Record reg := mkReg { r_algs : list alg; r_tree : list Z; r_slots : list slot; r_log : list call }.

(** nhdp.h:64-68 and the size of the name buffers (nhdp_domain.h:66-70; strscpy
    keeps the first 15 characters, C56) *)
Definition NO_NAME : bytes := zs "-".
Definition ANY_NAME : bytes := zs "*".
Definition NAMELEN : Z := 16.
Definition copy_name (s : bytes) : bytes := firstn (Z.to_nat (NAMELEN - 1)) s.

Definition name_of (r : reg) (k : Z) : option bytes := do a <- zget (r_algs r) k ; Some (a_name a).
Definition add_ref (r : reg) (k d : Z) : option reg :=
  do a <- zget (r_algs r) k ;
  do l <- zset (r_algs r) k (mkAlg (a_name a) (a_ref a + d)) ;
  Some (mkReg l (r_tree r) (r_slots r) (r_log r)).
Definition set_slot (r : reg) (i : Z) (s : slot) : option reg :=
  do l <- zset (r_slots r) i s ; Some (mkReg (r_algs r) (r_tree r) l (r_log r)).
Definition call_cb (r : reg) (c : call) : reg := mkReg (r_algs r) (r_tree r) (r_slots r) (r_log r ++ [c]).

(** nhdp_domain.c:1220-1229 [_remove_metric], 1285-1294 [_remove_mpr] *)
Definition remove_alg (r : reg) (i : Z) : option reg :=
  do s <- zget (r_slots r) i ;
  do r1 <- add_ref r (s_alg s) (-1) ;
  do a <- zget (r_algs r1) (s_alg s) ;
  let r2 := if (a_ref a =? 0) && negb (s_alg s =? 0) then call_cb r1 (Disable (s_alg s)) else r1 in
  do r3 <- set_slot r2 i (mkSlot NO_NAME 0) ;
  add_ref r3 0 1.

(** avl_find with avl_comp_strcasecmp (equality of strcasecmp: C04) *)
Fixpoint find_name (r : reg) (l : list Z) (nm : bytes) : option (option Z) :=
  match l with
  | [] => Some None
  | k :: l' => do n <- name_of r k ; if strcase_eqb n nm then Some (Some k) else find_name r l' nm
  end.

(** nhdp_domain.c:1177-1214 [_apply_metric], 1240-1279 [_apply_mpr] *)
Definition apply_alg (r : reg) (i : Z) (nm : bytes) : option reg :=
  do s <- zget (r_slots r) i ;
  if strcase_eqb (s_name s) nm then Some r else
  do r1 <- (if s_alg s =? 0 then Some r else remove_alg r i) ;
  do nm' <- (if strcase_eqb nm ANY_NAME then
               match r_tree r1 with [] => Some nm | k :: _ => name_of r1 k end
             else Some nm) ;
  do f <- find_name r1 (r_tree r1) nm' ;
  let k := match f with Some k => k | None => 0 end in
  do n <- name_of r1 k ;
  do s1 <- zget (r_slots r1) i ;
  do r2 <- add_ref r1 (s_alg s1) (-1) ;
  do r3 <- set_slot r2 i (mkSlot (copy_name n) k) ;
  do a <- zget (r_algs r3) k ;
  let r4 := if (a_ref a =? 0) && negb (k =? 0) then call_cb r3 (Enable k) else r3 in
  add_ref r4 k 1.

(** avl_insert without duplicates: the position before the first larger name;
    [Some None]: the name is there already *)
Fixpoint tree_insert (r : reg) (k : Z) (nm : bytes) (l : list Z) : option (option (list Z)) :=
  match l with
  | [] => Some (Some [k])
  | j :: l' =>
    do n <- name_of r j ;
    if strcase_eqb nm n then Some None
    else if strcasecmp nm n <? 0 then Some (Some (k :: l))
    else do t <- tree_insert r k nm l' ; Some (option_map (cons j) t)
  end.

(** nhdp_domain.c:263-270: offer the new algorithm to the users from [i] on that
    have none, [n] of them *)
Fixpoint offer (n : nat) (i : Z) (r : reg) : option reg :=
  match n with
  | O => Some r
  | S n' =>
    do s <- zget (r_slots r) i ;
    do r' <- (if s_alg s =? 0 then apply_alg r i (s_name s) else Some r) ;
    offer n' (i + 1) r'
  end.

(** nhdp_domain.c:196-229 [nhdp_domain_metric_add], 255-275 [nhdp_domain_mpr_add] *)
Definition alg_add (mpr : bool) (r : reg) (k : Z) : option reg :=
  do nm <- name_of r k ;
  do t <- tree_insert r k nm (r_tree r) ;
  match t with
  | None => Some r
  | Some t =>
    let r1 := mkReg (r_algs r) t (r_slots r) (r_log r) in
    if mpr then
      do r2 <- offer (length (r_slots r) - 1) 1 r1 ;
      offer 1 0 r2
    else Some r1
  end.

(** nhdp_domain.c:238-243, 285-290: the first domain (from position [i] on) that
    uses the algorithm *)
Fixpoint first_user (k i : Z) (l : list slot) : option Z :=
  match l with
  | [] => None
  | s :: l' => if s_alg s =? k then Some i else first_user k (i + 1) l'
  end.
(** nhdp_domain.c:235-247 [nhdp_domain_metric_remove], 282-294
    [nhdp_domain_mpr_remove]; the algorithm has to be in the tree *)
Definition alg_remove (r : reg) (k : Z) : option reg :=
  if existsb (Z.eqb k) (r_tree r) then
    do r1 <- match first_user k 1 (tl (r_slots r)) with
             | None => Some r
             | Some i => remove_alg r i
             end ;
    Some (mkReg (r_algs r1) (filter (fun j => negb (j =? k)) (r_tree r1)) (r_slots r1) (r_log r1))
  else None.

(** nhdp_domain.c:1090-1132 [nhdp_domain_add] of a new extension; the name buffer
    of a new domain is empty *)
Definition domain_add (r : reg) : option reg :=
  if zlen (r_slots r) =? MAXDOM + 1 then Some r else
  add_ref (mkReg (r_algs r) (r_tree r) (r_slots r ++ [mkSlot [] 0]) (r_log r)) 0 1.

Inductive op := AlgAdd (k : Z) | AlgRemove (k : Z) | DomainAdd | Configure (i : Z) (nm : bytes).
Definition step (mpr : bool) (r : reg) (o : op) : option reg :=
  match o with
  | AlgAdd k => alg_add mpr r k
  | AlgRemove k => alg_remove r k
  | DomainAdd => domain_add r
  | Configure i nm => apply_alg r i nm
  end.
Fixpoint run (mpr : bool) (r : reg) (ops : list op) : option reg :=
  match ops with
  | [] => Some r
  | o :: ops' => do r' <- step mpr r o ; run mpr r' ops'
  end.

(** nhdp_domain.c:133-152 [nhdp_domain_init] and the structures of the program:
    the flooding domain uses the default *)
Definition init (default : bytes) (names : list bytes) : reg :=
  mkReg (mkAlg default 1 :: map (fun n => mkAlg n 0) names) [] [mkSlot [] 0] [].
