(** Model of the addresses of the TC messages sent: src/olsrv2/olsrv2/olsrv2_writer.c
    (_generate_neighbor_metric_tlvs, _cb_addAddresses) and the set of locally
    attached networks (src/olsrv2/olsrv2/olsrv2_lan.c).

    Network addresses are numbers; their family, prefix length and the bytes of a
    source prefix are parameters.  The number of a domain is its position in the
    list.  Arrays have one element per possible domain; [None]: access outside of
    them.  Memory allocation succeeds.  Object trees are lists in the order of
    insertion (the order of the addresses does not matter). *)
From Verif Require Import Base CodecModel.
From Verif Require DomModel.
Notation "'do' x <- a ; b" := (match a with Some x => b | None => None end)
  (at level 200, x pattern, a at level 100, b at level 200).
Notation MAXDOM := DomModel.MAXDOM.
Notation dom := DomModel.dom.

(** ** Locally attached networks *)
(** os_routing.h [struct os_route_key]: destination and source prefix *)
Definition rkey : Type := Z * Z.
Definition rkeqb (a b : rkey) : bool := (fst a =? fst b) && (snd a =? snd b).
(** olsrv2_lan.h:60-69 [struct olsrv2_lan_domaindata] *)
Record ldata := { l_metric : Z; l_dist : Z; l_active : bool }.
(** olsrv2_lan.h:74-86 [struct olsrv2_lan_entry] *)
Record lent := { l_key : rkey; l_same : bool; l_data : list ldata }.

Fixpoint lan_get (k : rkey) (t : list lent) : option lent :=
  match t with [] => None | e :: t' => if rkeqb (l_key e) k then Some e else lan_get k t' end.
Definition lan_del (k : rkey) (t : list lent) : list lent := filter (fun e => negb (rkeqb (l_key e) k)) t.
Fixpoint lan_put (e : lent) (t : list lent) : list lent :=
  match t with [] => [e] | x :: t' => if rkeqb (l_key x) (l_key e) then e :: t' else x :: lan_put e t' end.

(** olsrv2_lan.c:133-148: is the distance the same for all active domains *)
Fixpoint same_distance (tmp : Z) (l : list ldata) : bool :=
  match l with
  | [] => true
  | x :: l' =>
      if l_active x then
        let tmp := if tmp =? 0 then l_dist x else tmp in
        if tmp =? l_dist x then same_distance tmp l' else false
      else same_distance tmp l'
  end.
Definition no_lan : list ldata := repeat {| l_metric := METRIC_INFINITE; l_dist := 0; l_active := false |} (Z.to_nat MAXDOM).
(** olsrv2_lan.c:105-155 [olsrv2_lan_add] *)
Definition lan_add (dx : Z) (k : rkey) (metric dist : Z) (t : list lent) : option (list lent) :=
  let data := match lan_get k t with Some e => l_data e | None => no_lan end in
  do data' <- zset data dx {| l_metric := metric; l_dist := dist; l_active := true |} ;
  Some (lan_put {| l_key := k; l_same := same_distance 0 data'; l_data := data' |} t).
(** olsrv2_lan.c:162-184 [olsrv2_lan_remove], 199-203 [_remove] *)
Definition lan_remove (dx : Z) (k : rkey) (t : list lent) : option (list lent) :=
  match lan_get k t with
  | None => Some t
  | Some e =>
      do x <- zget (l_data e) dx ;
      do data' <- zset (l_data e) dx {| l_metric := l_metric x; l_dist := l_dist x; l_active := false |} ;
      if existsb l_active data' then Some (lan_put {| l_key := k; l_same := l_same e; l_data := data' |} t)
      else Some (lan_del k t)
  end.
Inductive lop := LanAdd (dx : Z) (k : rkey) (metric dist : Z) | LanDel (dx : Z) (k : rkey).
Definition lstep (o : lop) (t : list lent) : option (list lent) :=
  match o with LanAdd dx k m d => lan_add dx k m d t | LanDel dx k => lan_remove dx k t end.
Fixpoint lrun (os : list lop) (t : list lent) : option (list lent) :=
  match os with [] => Some t | o :: os' => do t' <- lstep o t ; lrun os' t' end.

(** ** Addresses with TLVs *)
(** address TLVs of TC messages: NBR_ADDR_TYPE, LINK_METRIC (extension), GATEWAY
    (extension) and SRC_PREFIX *)
Inductive wtlv := WType (b : Z) | WMetric (ext : Z) (b0 b1 : Z) | WGateway (ext : Z) (v : bytes) | WSource (v : bytes).
(** avl_find with the full type of the TLV *)
Definition same_type (a b : wtlv) : bool :=
  match a, b with
  | WType _, WType _ | WSource _, WSource _ => true
  | WMetric e _ _, WMetric f _ _ | WGateway e _, WGateway f _ => e =? f
  | _, _ => false
  end.
Definition wmsg : Type := list (Z * list wtlv).
(** rfc5444_writer.c:237-272 [rfc5444_writer_add_address] *)
Fixpoint add_address (a : Z) (w : wmsg) : wmsg :=
  match w with [] => [(a, [])] | (b, l) :: w' => if b =? a then w else (b, l) :: add_address a w' end.
(** rfc5444_writer.c:189-225 [rfc5444_writer_add_addrtlv], on an address that is there *)
Fixpoint add_tlv (a : Z) (t : wtlv) (dup : bool) (w : wmsg) : wmsg :=
  match w with
  | [] => []
  | (b, l) :: w' =>
      if b =? a then (if negb dup && existsb (same_type t) l then w else (b, l ++ [t]) :: w')
      else (b, l) :: add_tlv a t dup w'
  end.
Definition add_tlvs (a : Z) (ts : list wtlv) (dup : bool) (w : wmsg) : wmsg := fold_left (fun w t => add_tlv a t dup w) ts w.

(** ** Neighbors *)
(** What the writer looks at: number of symmetric links > 0; per domain: has it
    selected us as MPR (local_is_mpr), metrics; originator, addresses *)
Record tnb := { b_sym : bool; b_mpr : list bool; b_in : list Z; b_out : list Z; b_orig : option Z; b_addrs : list Z }.

Section W.
Context (ds : list dom) (fam : Z -> bool) (routable : Z -> bool) (nhdp_conf : bool) (plen : Z -> Z) (src_value : Z -> bytes).

(** olsrv2_writer.c:286-351 [_generate_neighbor_metric_tlvs]: the loop over the
    domains from number [i]: the TLVs that are added *)
Fixpoint metric_tlvs (i : Z) (l : list dom) (nb : tnb) : option (list wtlv) :=
  match l with
  | [] => Some []
  | d :: l' =>
      do mpr <- zget (b_mpr nb) i ;
      do min <- zget (b_in nb) i ;
      do mout <- zget (b_out nb) i ;
      do r <- metric_tlvs (i + 1) l' nb ;
      if negb mpr then Some r else
      if min >? METRIC_MAX then Some r else
      match metric_encode min with
      | MetricErr | MetricLoop => Some r
      | MetricOk i0 i1 =>
          let i0 := metric_set_flag i0 DomModel.INCOMING_NEIGH in
          match metric_encode mout with
          | MetricErr | MetricLoop => Some (WMetric (DomModel.d_ext d) i0 i1 :: r)
          | MetricOk o0 o1 =>
              if (i0 =? o0) && (i1 =? o1) then Some (WMetric (DomModel.d_ext d) (metric_set_flag i0 DomModel.OUTGOING_NEIGH) i1 :: r)
              else if mout <=? METRIC_MAX then
                Some (WMetric (DomModel.d_ext d) i0 i1 :: WMetric (DomModel.d_ext d) (metric_set_flag o0 DomModel.OUTGOING_NEIGH) o1 :: r)
              else Some (WMetric (DomModel.d_ext d) i0 i1 :: r)
          end
      end
  end.
(** olsrv2.c:365-371 [olsrv2_is_nhdp_routable] *)
Definition nhdp_routable (a : Z) : bool := if negb nhdp_conf then false else routable a.
Definition is_originator (nb : tnb) (a : Z) : bool := match b_orig nb with Some o => o =? a | None => false end.
(** olsrv2_writer.c:413-455: the addresses of one neighbor *)
Fixpoint add_naddrs (nb : tnb) (l : list Z) (w : wmsg) : option wmsg :=
  match l with
  | [] => Some w
  | a :: l' =>
      if negb (fam a) then add_naddrs nb l' w else
      if negb (nhdp_routable a) && negb (is_originator nb a) then add_naddrs nb l' w else
      let v := Z.lor (if routable a then 2 else 0) (if is_originator nb a then 1 else 0) in
      if v =? 0 then add_naddrs nb l' w else
      do m <- metric_tlvs 0 ds nb ;
      add_naddrs nb l' (add_tlvs a m true (add_tlv a (WType v) false (add_address a w)))
  end.
(** olsrv2_writer.c:397-403: is there a domain with local_is_mpr *)
Fixpoint any_mpr (i : Z) (l : list dom) (nb : tnb) : option bool :=
  match l with
  | [] => Some false
  | d :: l' => do m <- zget (b_mpr nb) i ; if m then Some true else any_mpr (i + 1) l' nb
  end.
(** olsrv2_writer.c:387-456 *)
Fixpoint add_neighbors (nbs : list tnb) (w : wmsg) : option wmsg :=
  match nbs with
  | [] => Some w
  | nb :: nbs' =>
      if negb (b_sym nb) then add_neighbors nbs' w else
      do any <- any_mpr 0 ds nb ;
      if negb any then add_neighbors nbs' w else
      do w' <- add_naddrs nb (b_addrs nb) w ;
      add_neighbors nbs' w'
  end.

(** olsrv2_writer.c:486-511: the metrics of an attached network, and the vector
    of distances *)
Fixpoint lan_metrics (i : Z) (l : list dom) (e : lent) (vec : bytes) : option (list wtlv * bytes) :=
  match l with
  | [] => Some ([], vec)
  | d :: l' =>
      do x <- zget (l_data e) i ;
      if l_metric x >? METRIC_MAX then lan_metrics (i + 1) l' e vec else
      match metric_encode (l_metric x) with
      | MetricErr | MetricLoop => lan_metrics (i + 1) l' e vec
      | MetricOk o0 o1 =>
          do vec' <- zset vec i (l_dist x) ;
          do r <- lan_metrics (i + 1) l' e vec' ;
          Some (WMetric (DomModel.d_ext d) (metric_set_flag o0 DomModel.OUTGOING_NEIGH) o1 :: fst r, snd r)
      end
  end.
(** olsrv2_writer.c:260-267 and nhdp_domain.c:762-775: number of MPR types in the message *)
Definition mprtypes_size : Z := if 1 <? zlen ds then Z.min (zlen ds) MAXDOM else 0.
(** olsrv2_writer.c:468-481: the address and the kind of gateway of a network *)
Definition lan_address (k : rkey) : Z * Z :=
  if (plen (fst k) >? 0) || (plen (snd k) =? 0)
  then (fst k, if plen (snd k) =? 0 then 0 else 1)
  else (snd k, 2).
(** olsrv2_writer.c:459-529 *)
Definition add_lan (e : lent) (w : wmsg) : option wmsg :=
  if negb (fam (fst (l_key e))) then Some w else
  let '(a, ext) := lan_address (l_key e) in
  do r <- lan_metrics 0 ds e (repeat 0 (Z.to_nat MAXDOM)) ;
  let v := firstn (Z.to_nat (if l_same e then 1 else mprtypes_size)) (snd r) in
  let w1 := add_tlv a (WGateway ext v) false (add_tlvs a (fst r) false (add_address a w)) in
  Some (if ext =? 1 then add_tlv a (WSource (src_value (snd (l_key e)))) false w1 else w1).
Fixpoint add_lans (t : list lent) (w : wmsg) : option wmsg :=
  match t with [] => Some w | e :: t' => do w' <- add_lan e w ; add_lans t' w' end.
(** olsrv2_writer.c:357-522 [_cb_addAddresses] *)
Definition tc_addresses (nbs : list tnb) (t : list lent) : option wmsg :=
  do w <- add_neighbors nbs [] ; add_lans t w.
End W.
