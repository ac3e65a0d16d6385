(** Model of the decisions of OLSRv2 about flooded messages:
    src/olsrv2/olsrv2/olsrv2.c:381-519 (olsrv2_mpr_shall_process,
    olsrv2_mpr_shall_forwarding) on the two duplicate sets of the protocol
    (src/base/oonf_duplicate_set.c:176-229 with its validity timers;
    src/base/oonf_rfc5444.c:464-465: 16 bit numbers), called in the order of
    olsrv2_reader.c:291-300.

    Addresses are numbers; what NHDP knows about the sender of the packet at
    that moment comes with the message.  The trees of the sets are association
    lists.  Allocation succeeds.  A timer may fire late (at any time not before
    its clock, C13). *)
From Verif Require Import Base DupsetModel TimerModel.

Definition fkey : Type := Z * Z.   (* message type and originator *)
Definition fkeqb (a b : fkey) : bool := (fst a =? fst b) && (snd a =? snd b).

(** The link the packet came in by: has this neighbor selected us as flooding
    MPR (local_is_flooding_mpr), is the link itself symmetric (not looked at by
    the code), number of symmetric links of the neighbor, and the same number
    for the neighbor of the dualstack partner *)
Record flink := { l_mpr : bool; l_up : bool; l_sym : Z; l_partner : option Z }.
(** A message: type, originator and sequence number (if there), validity time,
    the receiving interface ([None]: not set; [Some true]: the unicast socket),
    is the source address set, does it have the family of the originator, is the
    interface known to NHDP, the link with this source address *)
Record fmsg := { m_type : Z; m_orig : option Z; m_seq : option Z; m_vtime : Z;
                 m_iface : option bool; m_src : bool; m_samefam : bool; m_nhdp : bool; m_link : option flink }.
(** configuration: forward_hold_time and processing_hold_time *)
Record fconf := { f_hold : Z; p_hold : Z }.

Definition fset : Type := list (fkey * (dentry * Z)).
Fixpoint tfind (k : fkey) (m : fset) : option (dentry * Z) :=
  match m with [] => None | (j, e) :: m' => if fkeqb j k then Some e else tfind k m' end.
Definition tdel (k : fkey) (m : fset) : fset := filter (fun e => negb (fkeqb (fst e) k)) m.
Definition tput (k : fkey) (e : dentry * Z) (m : fset) : fset := (k, e) :: tdel k m.

(** oonf_timer_set with a relative time, no jitter; 0 would stop the timer: the
    sum below is 0 only for a hold time the configuration does not allow or a
    wrap around *)
Definition deadline (now rel : Z) : Z := calc_clock now 0 0 rel.

(** oonf_duplicate_set.c:176-229 with the timer *)
Definition dup_add (now : Z) (m : fset) (k : fkey) (seq vtime : Z) : dup_result * fset :=
  match tfind k m with
  | None => (FIRST, tput k ({| de_history := 1; de_current := seq; de_too_old := 0 |}, deadline now vtime) m)
  | Some (e, t) =>
      let (r, e') := dup_test (dset_add BIT16) e seq true in
      (r, tput k (e', if dup_is_new r then deadline now vtime else t) m)
  end.

Record fst8 := { s_now : Z; s_proc : fset; s_fwd : fset }.
Definition fst0 : fst8 := {| s_now := 0; s_proc := []; s_fwd := [] |}.

Section F.
Context (c : fconf).

(** olsrv2.c:390-416 [olsrv2_mpr_shall_process]: the hold time of the forwarding set *)
Definition shall_process (s : fst8) (m : fmsg) : fst8 * bool :=
  match m_orig m, m_seq m with
  | Some o, Some q =>
      let (r, p) := dup_add (s_now s) (s_proc s) (m_type m, o) q (u64 (m_vtime m + f_hold c)) in
      ({| s_now := s_now s; s_proc := p; s_fwd := s_fwd s |}, dup_is_new r)
  | _, _ => (s, false)
  end.

(** olsrv2.c:427-519 [olsrv2_mpr_shall_forwarding] *)
Definition sender_ok (m : fmsg) : bool :=
  if negb (m_nhdp m) then false else
  match m_link m with
  | None => false
  | Some l =>
      if m_samefam m then l_mpr l && (l_sym l >? 0)
      else match l_partner l with
           | Some n => l_mpr l && (n >? 0)
           | None => false
           end
  end.
Definition shall_forward (s : fst8) (m : fmsg) : fst8 * bool :=
  match m_orig m, m_seq m with
  | Some o, Some q =>
      match m_iface m with
      | None => (s, false)
      | Some uni =>
          if negb (m_src m) then (s, false) else
          if uni then (s, false) else
          let (r, f) := dup_add (s_now s) (s_fwd s) (m_type m, o) q (u64 (m_vtime m + f_hold c)) in
          let s' := {| s_now := s_now s; s_proc := s_proc s; s_fwd := f |} in
          if negb (dup_is_new r) then (s', false) else (s', sender_ok m)
      end
  | _, _ => (s, false)
  end.

Inductive fop := Recv (m : fmsg) | Wait (d : Z) | ExpP (k : fkey) | ExpF (k : fkey).

(** result for a message: processed?, forwarded? *)
Definition expire (now : Z) (k : fkey) (m : fset) : fset :=
  match tfind k m with
  | Some (_, t) => if t <=? now then tdel k m else m
  | None => m
  end.
Definition fstep (o : fop) (s : fst8) : fst8 * option (bool * bool) :=
  match o with
  | Recv m => let (s1, f) := shall_forward s m in let (s2, p) := shall_process s1 m in (s2, Some (p, f))
  | Wait d => ({| s_now := s_now s + Z.max 0 d; s_proc := s_proc s; s_fwd := s_fwd s |}, None)
  | ExpP k => ({| s_now := s_now s; s_proc := expire (s_now s) k (s_proc s); s_fwd := s_fwd s |}, None)
  | ExpF k => ({| s_now := s_now s; s_proc := s_proc s; s_fwd := expire (s_now s) k (s_fwd s) |}, None)
  end.
Fixpoint frun (ops : list fop) (s : fst8) : fst8 * list (option (bool * bool)) :=
  match ops with
  | [] => (s, [])
  | o :: ops' => let (s1, r) := fstep o s in let (s2, rs) := frun ops' s1 in (s2, r :: rs)
  end.
End F.
