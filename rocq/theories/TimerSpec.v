(** What a timer scheduler has to do, as a condition on the trace of events
    (newest first). *)
From Verif Require Import Base ListModel TimerModel.

Section Spec.
Context (jitter : Z -> Z).

(** current time according to the trace *)
Fixpoint now_of (l : list ev) : Z :=
  match l with [] => 0 | EvNow n :: _ => n | _ :: l => now_of l end.
(** running timers: firing time and period *)
Fixpoint running (l : list ev) (t : Z) : option (Z * Z) :=
  match l with
  | [] => None
  | EvStart u c p _ :: l | EvRearm u c p :: l => if u =? t then Some (c, p) else running l t
  | EvStop u :: l => if u =? t then None else running l t
  | EvFire u _ _ :: l =>
      if u =? t then match running l t with Some (c, p) => if p =? 0 then None else Some (c, p) | None => None end
      else running l t
  | EvNow _ :: l | EvDone _ :: l => running l t
  end.
(** a periodic timer that fired and was not stopped since is to be restarted *)
Fixpoint rearm_due (l : list ev) (t : Z) : bool :=
  match l with
  | [] => false
  | EvFire u _ _ :: l =>
      if u =? t then match running l t with Some (_, p) => negb (p =? 0) | None => false end else rearm_due l t
  | EvStop u :: l => if u =? t then false else rearm_due l t
  | EvRearm u _ _ :: l => if u =? t then false else rearm_due l t
  | _ :: l => rearm_due l t
  end.
(** the timer whose callback is running *)
Fixpoint incallback (l : list ev) : option Z :=
  match l with
  | [] => None
  | EvFire t _ _ :: _ => Some t
  | EvDone _ :: _ => None
  | _ :: l => incallback l
  end.
(** firing time for a request at time [n]: on a slice boundary, not before the
    jittered time, at most one slice after the requested time *)
Definition due_ok (n jit rel c : Z) : Prop :=
  c mod SLICE = 0 /\ n + rel * (100 - jit) / 100 < c /\ c <= n + rel + SLICE.

Fixpoint legal (l : list ev) : Prop :=
  match l with
  | [] => True
  | e :: l =>
    legal l /\
    (* a finished callback of a timer that has to be restarted is followed by the restart *)
    (match l with EvDone t :: _ => rearm_due l t = true -> exists c p, e = EvRearm t c p | _ => True end) /\
    match e with
    | EvStart t c p first => due_ok (now_of l) (jitter t) first c
    | EvFire t c a =>
        (* only running timers fire, only when due, earliest first; a one-shot timer is
           not active in its callback *)
        incallback l = None /\ (exists p, running l t = Some (c, p) /\ a = negb (p =? 0)) /\ c <= now_of l /\
        (forall u cu pu, running l u = Some (cu, pu) -> c <= cu)
    | EvRearm t c p =>
        (exists l', l = EvDone t :: l') /\ rearm_due l t = true /\
        (exists c', running l t = Some (c', p)) /\ due_ok (now_of l) (jitter t) p c
    | EvStop t => running l t <> None
    | EvDone t => incallback l = Some t
    | EvNow _ => incallback l = None
    end
  end.
(** nothing is left to do *)
Definition settled (l : list ev) : Prop :=
  match l with EvDone t :: _ => rearm_due l t = false | _ => True end.
End Spec.

(** timers with a sensible configuration and calls with sensible times; times are
    uint64 values, far away from the end of the range *)
Definition BIG : Z := 72057594037927936. (* 2^56 ms, two million years *)
Definition jitter_ok (jitter : Z -> Z) : Prop := forall t, 0 <= jitter t <= 100.
Definition op_ok (o : top) : Prop :=
  match o with
  | TStart _ f i | TSet _ f i => 0 <= f < BIG /\ 0 <= i < BIG
  | _ => True
  end.
Definition act_ok (a : tact) : Prop :=
  match a with TOp o => op_ok o | TNow n => 0 <= n < BIG | TWalk => True end.
