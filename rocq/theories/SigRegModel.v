(** Model of the registries of hash, crypto functions and signatures:
    src/crypto/rfc7182_provider/rfc7182_provider.c:117-220 and the listeners of
    src/crypto/rfc5444_signature/rfc5444_signature.c:145-217, 704-777.

    A function object is known by its type, there is at most one object for a
    type (the trees refuse a second one).  Signatures are known by a name of
    the model.  The headers of these modules are not in the repository; what a
    listener for hashes reads as type of a crypto object is a parameter. *)
From Verif Require Import Base.

Inductive obj := OHash (t : Z) | OCrypt (t : Z).
Record rsig := { r_id : Z; r_hfun : Z; r_cfun : Z; r_hash : option obj; r_crypt : option obj; r_active : bool }.
Record reg := { hashes : list Z; crypts : list Z; sigs : list rsig }.
Definition set_hash (s : rsig) (o : option obj) : rsig :=
  {| r_id := r_id s; r_hfun := r_hfun s; r_cfun := r_cfun s; r_hash := o; r_crypt := r_crypt s; r_active := r_active s |}.
Definition set_crypt (s : rsig) (o : option obj) : rsig :=
  {| r_id := r_id s; r_hfun := r_hfun s; r_cfun := r_cfun s; r_hash := r_hash s; r_crypt := o; r_active := r_active s |}.
Definition set_active (s : rsig) (b : bool) : rsig :=
  {| r_id := r_id s; r_hfun := r_hfun s; r_cfun := r_cfun s; r_hash := r_hash s; r_crypt := r_crypt s; r_active := b |}.

Definition isSome {A} (o : option A) : bool := match o with Some _ => true | None => false end.
Definition zin (t : Z) (l : list Z) : bool := existsb (Z.eqb t) l.
Definition zdel (t : Z) (l : list Z) : list Z := filter (fun u => negb (u =? t)) l.

Section R.
(** the crypto functions with a getSignSize callback; the identity function of
    rfc7182_provider.c:91-94 has none *)
Context (sizable : Z -> bool).
(** what [hash->type] of rfc5444_signature.c:710 gives for a crypto object *)
Context (seen : Z -> Z).

(** rfc5444_signature.c:765-777 [_handle_postprocessor]; [None]: call of a NULL pointer *)
Definition handle_postprocessor (s : rsig) : option rsig :=
  if negb (r_active s) && isSome (r_hash s) && isSome (r_crypt s) then
    match r_crypt s with
    | Some (OCrypt t) => if sizable t then Some (set_active s true) else None
    | _ => None
    end
  else if r_active s && (negb (isSome (r_hash s)) || negb (isSome (r_crypt s))) then Some (set_active s false)
  else Some s.

Fixpoint each (f : rsig -> option rsig) (l : list rsig) : option (list rsig) :=
  match l with
  | [] => Some []
  | s :: l' => match f s, each f l' with Some s', Some l'' => Some (s' :: l'') | _, _ => None end
  end.

(** rfc5444_signature.c:703-715 [_cb_hash_added]; [ty] is the type it reads *)
Definition hash_added (ty : Z) (o : obj) (l : list rsig) : option (list rsig) :=
  each (fun s => if (r_hfun s =? ty) && negb (isSome (r_hash s)) then handle_postprocessor (set_hash s (Some o)) else Some s) l.
(** 717-729 [_cb_hash_removed] *)
Definition hash_removed (ty : Z) (l : list rsig) : option (list rsig) :=
  each (fun s => if (r_hfun s =? ty) && isSome (r_hash s) then handle_postprocessor (set_hash s None) else Some s) l.
(** 745-757 [_cb_crypt_removed].  [_cb_crypt_added] (732-744) is never called:
    nobody raises this event. *)
Definition crypt_removed (ty : Z) (l : list rsig) : option (list rsig) :=
  each (fun s => if (r_cfun s =? ty) && isSome (r_crypt s) then handle_postprocessor (set_crypt s None) else Some s) l.

Inductive rop :=
| AddHash (t : Z) | RemHash (t : Z)        (* rfc7182_provider.c:153-172 *)
| AddCrypt (t : Z) | RemCrypt (t : Z)      (* rfc7182_provider.c:187-216 *)
| AddSig (id h c : Z) | RemSig (id : Z).   (* rfc5444_signature.c:186-217 *)

(** AddCrypt raises the event of the hash class (rfc7182_provider.c:204) *)
Definition rstep (o : rop) (r : reg) : option reg :=
  match o with
  | AddHash t =>
      match hash_added t (OHash t) (sigs r) with
      | Some l => Some {| hashes := t :: hashes r; crypts := crypts r; sigs := l |} | None => None end
  | RemHash t =>
      match hash_removed t (sigs r) with
      | Some l => Some {| hashes := zdel t (hashes r); crypts := crypts r; sigs := l |} | None => None end
  | AddCrypt t =>
      match hash_added (seen t) (OCrypt t) (sigs r) with
      | Some l => Some {| hashes := hashes r; crypts := t :: crypts r; sigs := l |} | None => None end
  | RemCrypt t =>
      match crypt_removed t (sigs r) with
      | Some l => Some {| hashes := hashes r; crypts := zdel t (crypts r); sigs := l |} | None => None end
  | AddSig id h c =>
      match handle_postprocessor {| r_id := id; r_hfun := h; r_cfun := c;
                r_hash := if zin h (hashes r) then Some (OHash h) else None;
                r_crypt := if zin c (crypts r) then Some (OCrypt c) else None; r_active := false |} with
      | Some s => Some {| hashes := hashes r; crypts := crypts r; sigs := s :: sigs r |} | None => None end
  | RemSig id => Some {| hashes := hashes r; crypts := crypts r; sigs := filter (fun s => negb (r_id s =? id)) (sigs r) |}
  end.
(** rfc7182_provider.c:121-130: the identity functions, before any listener *)
Definition reg0 : reg := {| hashes := [0]; crypts := [0]; sigs := [] |}.
Fixpoint rrun (ops : list rop) (r : reg) : option reg :=
  match ops with
  | [] => Some r
  | o :: ops' => match rstep o r with Some r' => rrun ops' r' | None => None end
  end.
End R.
