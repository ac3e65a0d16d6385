(** Model of the addresses of HELLO messages: src/nhdp/nhdp/nhdp_writer.c
    [_cb_addAddresses], [_add_localif_address], [_add_link_address] on the database of
    NhdpModel.v, and of the own addresses of src/nhdp/nhdp/nhdp_interfaces.c.

    Simplifications: the result is the list of addresses with the values of their LOCAL_IF,
    LINK_STATUS and OTHER_NEIGHB TLVs, in the form in which the reader of NhdpModel.v
    takes it (how they become bytes and how these are read: C41, C47, C64).  MPR and metric TLVs:
    DomModel.v.  No splitting of the message, allocation never fails.  The order of the trees
    is left out. *)
From Verif Require Import Base NhdpModel.

(** ** Own addresses, include/oonf/nhdp/nhdp/nhdp_interfaces.h:166-187 [struct nhdp_interface_addr] *)
Record ifaddr := { ia_if : Z; ia_addr : addr; ia_removed : bool }.
Definition is_ia (i : Z) (a : addr) (x : ifaddr) : bool := (ia_if x =? i) && addr_eqb (ia_addr x) a.
Definition set_removed (v : bool) (x : ifaddr) : ifaddr := {| ia_if := ia_if x; ia_addr := ia_addr x; ia_removed := v |}.
(** nhdp_interfaces.c:405-445 [_addr_add]; addresses of an interface that
    differ only in the prefix length are left out *)
Definition addr_add (i : Z) (l : list ifaddr) (a : addr) : list ifaddr :=
  if existsb (is_ia i a) l then upd (is_ia i a) (set_removed false) l
  else l ++ [{| ia_if := i; ia_addr := a; ia_removed := false |}].
Inductive ifop :=
| IfEvent (i : Z) (l : list addr)   (* 531-610 [_cb_interface_event]: [l] the addresses of the interface that are
                                       accepted by the filter, of active families; none if it is down *)
| IfTimeout (i : Z) (a : addr)      (* 484-490 [_cb_addr_timeout], for removed addresses *)
| IfGone (i : Z).                   (* 274-312 [nhdp_interface_remove] *)
(** 549-587: the mark _to_be_removed stays on the addresses that are not added again *)
Definition ifstep (st : list ifaddr) (o : ifop) : list ifaddr :=
  match o with
  | IfEvent i l => upd (fun x => (ia_if x =? i) && negb (existsb (addr_eqb (ia_addr x)) l)) (set_removed true) (fold_left (addr_add i) l st)
  | IfTimeout i a => del (fun x => is_ia i a x && ia_removed x) st
  | IfGone i => del (fun x => ia_if x =? i) st
  end.
Definition ifrun (ops : list ifop) : list ifaddr := fold_left ifstep ops [].

(** ** The HELLO *)
Definition blank (a : addr) : haddr := {| ha_addr := a; ha_ok1 := true; ha_ok2 := true; ha_local := None; ha_status := None; ha_other := None |}.
(** src/librfc5444/rfc5444_writer.c:237-271 [rfc5444_writer_add_address]: one object per
    address; [f] the TLVs added to it *)
Definition put (a : addr) (f : haddr -> haddr) (l : list haddr) : list haddr :=
  if existsb (fun x => addr_eqb (ha_addr x) a) l then upd (fun x => addr_eqb (ha_addr x) a) f l else l ++ [f (blank a)].
(** a second LOCAL_IF TLV is the same as the first *)
Definition put_local (v : Z) (x : haddr) : haddr :=
  {| ha_addr := ha_addr x; ha_ok1 := ha_ok1 x; ha_ok2 := ha_ok2 x; ha_local := Some v; ha_status := ha_status x; ha_other := ha_other x |}.
Definition put_link (st ot : option Z) (x : haddr) : haddr :=
  {| ha_addr := ha_addr x; ha_ok1 := ha_ok1 x; ha_ok2 := ha_ok2 x; ha_local := ha_local x; ha_status := st; ha_other := ot |}.

(** nhdp_writer.c:303-332 [_add_localif_address] *)
Definition add_local (st : list ifaddr) (i : Z) (l : list haddr) (x : ifaddr) : list haddr :=
  put (ia_addr x) (put_local (if existsb (is_ia i (ia_addr x)) st then THIS_IF else OTHER_IF)) l.
(** nhdp_writer.c:341-386 [_add_link_address] up to the MPR TLV *)
Definition link_tlvs (s : db) (i : Z) (x : naddr) : res (option Z * option Z) :=
  do st <- (if active (na_lost x) then Ok None
            else match laddr_get s i (na_addr x) with
                 | None => Ok None
                 | Some la => do l <- get_l s (la_l la);
                              Ok (if (l_if l =? i) && negb (l_status l =? PENDING) then Some (l_status l) else None)
                 end);
  do n <- get_n s (na_n x);
  let issym := match st with Some v => v =? SYMMETRIC | None => false end in
  Ok (st, Some (if negb (active (na_lost x)) && (n_sym n >? 0) && negb issym then 1 else 0)).
Fixpoint add_links (s : db) (i f : Z) (xs : list naddr) (l : list haddr) : res (list haddr) :=
  match xs with
  | [] => Ok l
  | x :: r =>
    if a_af (na_addr x) =? f then
      do t <- link_tlvs s i x;
      add_links s i f r (put (na_addr x) (put_link (fst t) (snd t)) l)
    else add_links s i f r l
  end.
(** nhdp_writer.c:516-544 [_cb_addAddresses] on interface [i] to a multicast address of family [f] *)
Definition hello_addrs (st : list ifaddr) (s : db) (i f : Z) : res (list haddr) :=
  add_links s i f (s_na s)
    (fold_left (add_local st i) (filter (fun x => negb (ia_removed x) && (a_af (ia_addr x) =? f)) st) []).
