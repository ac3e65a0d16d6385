(** What the users of RFC 5444 interfaces and targets may do, and what they rely on. *)
From Verif Require Import Base R5Model.

(** ** References *)
(** what a user got and has not given back: an interface with the listener hooked to it, or a target
    of an interface with a destination *)
Inductive handle := HI (i : Z) (l : option Z) | HT (t i d : Z).
Definition h_if (h : handle) : Z := match h with HI i _ => i | HT _ i _ => i end.
Definition opt_eqb (a b : option Z) : bool := match a, b with Some x, Some y => x =? y | None, None => true | _, _ => false end.
Definition h_eqb (a b : handle) : bool :=
  match a, b with HI i l, HI j m => (i =? j) && opt_eqb l m | HT t i d, HT u j e => (t =? u) && (i =? j) && (d =? e) | _, _ => false end.
Fixpoint drop (h : handle) (hs : list handle) : list handle :=
  match hs with [] => [] | x :: r => if h_eqb x h then r else x :: drop h r end.
Definition got (o : list out) : Z := match o with [Got h] => h | _ => -1 end.
(** the handles after a call that answered [out] *)
Definition hold (hs : list handle) (o : op) (a : list out) : list handle :=
  match o with
  | AddIf l _ => HI (got a) l :: hs
  | RemIf i l => drop (HI i l) hs
  | AddTgt i d => HT (got a) i d :: hs
  | RemTgt t => match find (fun h => match h with HT u _ _ => u =? t | _ => false end) hs with Some h => drop h hs | None => hs end
  | _ => hs
  end.
Definition lis (h : handle) : list Z := match h with HI _ (Some l) => [l] | _ => [] end.
(** only what is held is used and given back; a listener is hooked once *)
Definition allowed (hs : list handle) (o : op) : Prop :=
  match o with
  | AddIf (Some l) _ => ~ In l (flat_map lis hs)
  | RemIf i l => In (HI i l) hs
  | AddTgt i _ | Over i _ | Event i _ | Conf i _ _ => exists l, In (HI i l) hs
  | RemTgt t | Msg t _ _ | Flush t _ | NeedT t _ => exists i d, In (HT t i d) hs
  | Section _ _ _ _ | SectionGone _ => False
  | _ => True
  end.
(** a history of calls that keep to this *)
Fixpoint fair (s : st) (hs : list handle) (ops : list op) : Prop :=
  match ops with
  | [] => True
  | o :: r => allowed hs o /\ match step s o with Ok a => fair (fst a) (hold hs o (snd a)) r | Bad _ => True end
  end.
(** what users have to keep to on top of that today: no destination has two users, a target is never the last thing that holds its
    interface, and who hooked a listener to an interface is its last user *)
Definition careful (hs : list handle) (o : op) : Prop :=
  match o with
  | AddTgt i d => forall t, ~ In (HT t i d) hs
  | RemTgt t => forall i d, In (HT t i d) hs -> exists h, In h (drop (HT t i d) hs) /\ h_if h = i
  | RemIf i (Some l) => forall h, In h (drop (HI i (Some l)) hs) -> h_if h <> i
  | _ => True
  end.
Fixpoint tidy (s : st) (hs : list handle) (ops : list op) : Prop :=
  match ops with
  | [] => True
  | o :: r => (allowed hs o /\ careful hs o) /\ match step s o with Ok a => tidy (fst a) (hold hs o (snd a)) r | Bad _ => True end
  end.
Definition safe (s : st) (ops : list op) : Prop := exists a, run s ops = Ok a.

(** ** Sequence numbers *)
Fixpoint consecutive (l : list Z) : Prop :=
  match l with a :: ((b :: _) as r) => b = (a + 1) mod 65536 /\ consecutive r | _ => True end.
Definition msg_seqs (l : list out) : list Z := flat_map (fun o => match o with Seq q => [q] | _ => [] end) l.
(** those of the packets for which [f] holds, as far as they carry one *)
Definition pkt_seqs (f : packet -> bool) (l : list out) : list Z :=
  flat_map (fun o => match o with Sent p => if f p then match p_seq p with Some q => [q] | None => [] end else [] | _ => [] end) l.

(** ** Aggregation *)
(** oonf_rfc5444.h:203-208: the interval that is in force *)
Definition interval (x : itf) : Z := if i_over x =? 0 then i_agg x else i_over x.
(** every message that waits leaves at most [a] after it came *)
Definition prompt (a : Z) (s : st) : Prop :=
  forall t m c, In t (s_ts s) -> In (m, c) (t_wait t) -> exists d, t_timer t = Some d /\ d <= c + a.
(** no section sets an interval above [a] *)
Definition at_most (a : Z) (o : op) : Prop := match o with Section _ _ c _ => c_agg c <= a | _ => True end.

(** ** Ports *)
(** oonf_rfc5444.h:124-128, oonf_packet_socket.h:157-160: an interface that was configured and has no raw sockets uses the port [p]: as multicast
    port, and as local port if the protocol has a fixed one or for the interface of unicast users *)
Definition ported (p : Z) (fixed : bool) (x : itf) : Prop :=
  i_set x = true -> i_raw x = false ->
  i_mport x = p /\ (fixed = true -> i_port x = p) /\ (i_name x = ANY -> i_port x = p).
Definition port_is (p : Z) (o : op) : Prop := match o with Port q _ => q = p | _ => True end.
