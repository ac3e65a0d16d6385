(** Model of src/crypto/simple_security/simple_security.c: replay protection
    with timestamps and challenges.

    A neighbor key (source address and interface) is a number.  The tree of
    neighbors is an association list without duplicates.  Packets come here
    after the signature check, with a timestamp TLV of four bytes (others are
    dropped, lines 534-538); a query or response of 0 is the same as none
    (lines 436-452).  Allocation of nodes and targets succeeds.  A timer is its
    deadline; timers fire in the order of their deadlines. *)
From Verif Require Import Base.

(** struct neighbor_node; the fields of a new node are zero *)
Record nnode := { n_last : Z; n_query : Z; n_resp : Z; n_vtime : Z; n_trig : option Z }.
Record sconf := { cf_vtime : Z; cf_delay : Z; cf_window : Z }.
(** [s_lost]: deadlines of triggers that still run although their node was freed *)
Record sst := { s_now : Z; s_local : Z; s_nodes : list (Z * nnode); s_lost : list Z }.

Fixpoint nfind (k : Z) (l : list (Z * nnode)) : option nnode :=
  match l with
  | [] => None
  | (j, n) :: l' => if j =? k then Some n else nfind k l'
  end.
Definition ndel (k : Z) (l : list (Z * nnode)) : list (Z * nnode) := filter (fun e => negb (fst e =? k)) l.
Definition nset (k : Z) (n : nnode) (l : list (Z * nnode)) : list (Z * nnode) := (k, n) :: ndel k l.

(** static uint32_t _local_timestamp = 1 (line 253) *)
Definition sst0 : sst := {| s_now := 0; s_local := 1; s_nodes := []; s_lost := [] |}.

Inductive sop :=
| Recv (k ts query resp : Z)   (* a packet arrives *)
| SendTlvs (k : Z)             (* _cb_addPacketTLVs for a unicast target *)
| SendStamp                    (* _cb_finishPacketTLVs *)
| Wait (d : Z)                 (* time goes on *)
| FireV (k : Z)                (* validity timer of a node *)
| FireT (k : Z)                (* trigger of a node *)
| FireLost (d : Z).            (* trigger of a freed node *)

Inductive sout :=
| Taken (k ts : Z) (by_resp : option Z)   (* accepted; answer to which query? *)
| Dropped (k ts : Z)
| Tlvs (k query resp : Z)                 (* TLVs put into a packet, 0: none *)
| Stamp (ts : Z)
| Flush (k : Z)                           (* rfc5444_writer_flush *)
| Quiet.

Section S.
Context (c : sconf).

(** lines 409-526 [_cb_timestamp_tlv] *)
Definition recv (k ts0 query resp : Z) (s : sst) : sst * sout :=
  let '(n, ts) :=
    match nfind k (s_nodes s) with
    | Some n => (n, ts0)
    | None => ({| n_last := 0; n_query := 0; n_resp := 0; n_vtime := s_now s + cf_vtime c; n_trig := None |}, 0)
    end in
  let answered := (n_query n >? 0) && (resp =? n_query n) in
  let '(last, q, trig, local, out) :=
    if answered || ((n_last n <? ts) && (u32 (n_last n + cf_window c) >? ts)) then
      (ts, 0, if query =? 0 then None else n_trig n, s_local s, Taken k ts (if answered then Some resp else None))
    else if n_last n =? ts then (n_last n, n_query n, n_trig n, s_local s, Dropped k ts)
    else if n_query n =? 0 then (n_last n, u32 (s_local s + 1), n_trig n, u32 (s_local s + 1), Dropped k ts)
    else (n_last n, n_query n, n_trig n, s_local s, Dropped k ts) in
  let trig :=
    if (q >? 0) || (query >? 0) then
      match trig with
      | Some t => Some t
      | None => Some (s_now s + (if query >? 0 then 1 else cf_delay c))
      end
    else trig in
  ({| s_now := s_now s; s_local := local;
      s_nodes := nset k {| n_last := last; n_query := q; n_resp := query; n_vtime := s_now s + cf_vtime c; n_trig := trig |} (s_nodes s);
      s_lost := s_lost s |}, out).

(** lines 545-593 [_cb_addPacketTLVs] *)
Definition send_tlvs (k : Z) (s : sst) : sst * sout :=
  match nfind k (s_nodes s) with
  | None => (s, Tlvs k 0 0)
  | Some n =>
      ({| s_now := s_now s; s_local := s_local s;
          s_nodes := nset k {| n_last := n_last n; n_query := n_query n; n_resp := 0; n_vtime := n_vtime n; n_trig := n_trig n |} (s_nodes s);
          s_lost := s_lost s |}, Tlvs k (n_query n) (n_resp n))
  end.
(** lines 601-609 [_cb_finishPacketTLVs] *)
Definition send_stamp (s : sst) : sst * sout :=
  ({| s_now := s_now s; s_local := u32 (s_local s + 1); s_nodes := s_nodes s; s_lost := s_lost s |}, Stamp (u32 (s_local s + 1))).

(** all running timers *)
Definition deadlines (s : sst) : list Z :=
  flat_map (fun e => n_vtime (snd e) :: match n_trig (snd e) with Some t => [t] | None => [] end) (s_nodes s) ++ s_lost s.
(** a timer with deadline [d] is the next one, and it is due *)
Definition due (d : Z) (s : sst) : bool := (d <=? s_now s) && forallb (fun e => d <=? e) (deadlines s).

(** lines 382-390 [_cb_neighbor_node_timeout]: the trigger is not stopped *)
Definition fire_v (k : Z) (s : sst) : sst * sout :=
  match nfind k (s_nodes s) with
  | Some n => if due (n_vtime n) s then
      ({| s_now := s_now s; s_local := s_local s; s_nodes := ndel k (s_nodes s);
          s_lost := match n_trig n with Some t => t :: s_lost s | None => s_lost s end |}, Quiet)
      else (s, Quiet)
  | None => (s, Quiet)
  end.
(** lines 396-401 [_cb_query_trigger], on a node that is still there *)
Definition fire_t (k : Z) (s : sst) : sst * sout :=
  match nfind k (s_nodes s) with
  | Some n =>
      match n_trig n with
      | Some t => if due t s then
          ({| s_now := s_now s; s_local := s_local s;
              s_nodes := nset k {| n_last := n_last n; n_query := n_query n; n_resp := n_resp n; n_vtime := n_vtime n; n_trig := None |} (s_nodes s);
              s_lost := s_lost s |}, Flush k)
          else (s, Quiet)
      | None => (s, Quiet)
      end
  | None => (s, Quiet)
  end.

(** [None]: the callback gets a pointer to freed memory *)
Definition sstep (o : sop) (s : sst) : option (sst * sout) :=
  match o with
  | Recv k ts q r => Some (recv k ts q r s)
  | SendTlvs k => Some (send_tlvs k s)
  | SendStamp => Some (send_stamp s)
  | Wait d => Some ({| s_now := s_now s + Z.max 0 d; s_local := s_local s; s_nodes := s_nodes s; s_lost := s_lost s |}, Quiet)
  | FireV k => Some (fire_v k s)
  | FireT k => Some (fire_t k s)
  | FireLost d => if existsb (Z.eqb d) (s_lost s) && due d s then None else Some (s, Quiet)
  end.
Fixpoint srun (ops : list sop) (s : sst) : option (sst * list sout) :=
  match ops with
  | [] => Some (s, [])
  | o :: ops' =>
      match sstep o s with
      | None => None
      | Some (s', out) => match srun ops' s' with Some (s'', outs) => Some (s'', out :: outs) | None => None end
      end
  end.
End S.
