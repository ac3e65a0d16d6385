(** Model of src/base/oonf_timer.c (timer scheduler).

    The tree of running timers (AVL tree with allow_dups, key: the timer, compared
    by its firing time) is kept as the sequence it shows: AvlProps proves that
    avl.c refines [seq_insert]/[seq_remove].  The configuration of a timer
    (class, jitter percentage, class periodic or not) does not change while the
    program runs and is a parameter.  Callbacks are an arbitrary function of
    everything that happened so far, giving the timer calls the callback makes.
    The operating system's random numbers are a stream; an exhausted stream
    stands for a failing os_core_get_random (the value is then 0).  Statistics
    other than the usage counter, logging, and the measurement of callback
    duration are left out. *)
From Verif Require Import Base ListModel AvlModel AvlSpec CompModel.

Definition SLICE : Z := 100.        (* oonf_timer.h:61 *)
Definition UINT32_MAX : Z := 4294967295.
Definition UINT64_MAX : Z := 18446744073709551615.

(** what happened, newest first; used by callbacks and by the specification *)
Inductive ev :=
| EvNow (n : Z)                     (* oonf_clock_update *)
| EvStart (t c p first : Z)         (* oonf_timer_start_ext: firing time, period, requested time *)
| EvStop (t : Z)                    (* oonf_timer_stop of a running timer *)
| EvFire (t c : Z) (active : bool)  (* callback is entered: firing time, is the timer active now *)
| EvDone (t : Z)                    (* callback has returned *)
| EvRearm (t c p : Z).              (* restart by oonf_timer_walk *)

(** calls a program can make *)
Inductive top :=
| TStart (t first interval : Z)     (* oonf_timer_start_ext *)
| TSet (t first interval : Z)       (* oonf_timer_set_ext *)
| TStop (t : Z)                     (* oonf_timer_stop *)
| TRemove (k : Z).                  (* oonf_timer_remove of a registered class *)

(** oonf_timer_instance (oonf_timer.h:105-123) and oonf_timer_class (67-100) *)
Record tstate := TS {
  now : Z;                          (* oonf_clock.c: now_times *)
  clock : Z -> Z;                   (* _clock; 0: not running *)
  period : Z -> Z;                  (* _period *)
  rnd : Z -> Z;                     (* _random *)
  queue : list Z;                   (* _timer_tree *)
  incb : Z -> option Z;             (* class: _timer_in_callback *)
  stopped : Z -> bool;              (* class: _timer_stopped *)
  usage : Z -> Z;                   (* class: _stat_usage *)
  rands : list Z;
  log : list ev
}.
Definition set_now s v := TS v (clock s) (period s) (rnd s) (queue s) (incb s) (stopped s) (usage s) (rands s) (log s).
Definition set_clock s x v := TS (now s) (upd (clock s) x v) (period s) (rnd s) (queue s) (incb s) (stopped s) (usage s) (rands s) (log s).
Definition set_period s x v := TS (now s) (clock s) (upd (period s) x v) (rnd s) (queue s) (incb s) (stopped s) (usage s) (rands s) (log s).
Definition set_rnd s x v := TS (now s) (clock s) (period s) (upd (rnd s) x v) (queue s) (incb s) (stopped s) (usage s) (rands s) (log s).
Definition set_queue s v := TS (now s) (clock s) (period s) (rnd s) v (incb s) (stopped s) (usage s) (rands s) (log s).
Definition set_incb s x v := TS (now s) (clock s) (period s) (rnd s) (queue s) (upd (incb s) x v) (stopped s) (usage s) (rands s) (log s).
Definition set_stopped s x v := TS (now s) (clock s) (period s) (rnd s) (queue s) (incb s) (upd (stopped s) x v) (usage s) (rands s) (log s).
Definition set_usage s x v := TS (now s) (clock s) (period s) (rnd s) (queue s) (incb s) (stopped s) (upd (usage s) x (u32 v)) (rands s) (log s).
Definition set_rands s v := TS (now s) (clock s) (period s) (rnd s) (queue s) (incb s) (stopped s) (usage s) v (log s).
Definition push s e := TS (now s) (clock s) (period s) (rnd s) (queue s) (incb s) (stopped s) (usage s) (rands s) (e :: log s).

(** all timers cleared, tree empty (oonf_timer.c:98-106) *)
Definition tinit (rs : list Z) : tstate :=
  TS 0 (fun _ => 0) (fun _ => 0) (fun _ => 0) [] (fun _ => None) (fun _ => false) (fun _ => 0) rs [].

Section Timer.
Context (class_of : Z -> Z) (jitter : Z -> Z) (periodic : Z -> bool).

(** oonf_timer.c:336-359, oonf_clock.h:215-218 *)
Definition calc_clock (nw jit random rel_time : Z) : Z :=
  let rel_time :=
    if negb (jit =? 0) then
      let random_jitter := random / (UINT32_MAX / jit) in
      let t := u64 (random_jitter * rel_time) / 100 in
      u64 (rel_time - t)
    else rel_time in
  let c := u64 (nw + rel_time) in
  let c := u64 (c + SLICE) in
  u64 (c - c mod SLICE).

(** os_core_get_random into timer->_random *)
Definition draw (s : tstate) (t : Z) : tstate :=
  match rands s with
  | [] => set_rnd s t 0
  | r :: rs => set_rnd (set_rands s rs) t (u32 r)
  end.

(** oonf_timer.h:144-146 *)
Definition is_active (s : tstate) (t : Z) : bool := negb (clock s t =? 0).
(** oonf_timer.c:159-195.  None: avl_insert refuses the node *)
Definition timer_start (s : tstate) (t first interval : Z) : option tstate :=
  let s := if negb (clock s t =? 0) then set_queue s (seq_remove t (queue s))
           else set_usage s (class_of t) (usage s (class_of t) + 1) in
  let s := if rnd s t =? 0 then draw s t else s in
  let s := set_clock s t (calc_clock (now s) (jitter t) (rnd s t) first) in
  let s := set_period s t (if periodic (class_of t) then interval else 0) in
  match seq_insert comp_int (clock s) true t (queue s) with
  | None => None
  | Some q => Some (set_queue s q)
  end.

(** oonf_timer.c:201-218 *)
Definition timer_stop (s : tstate) (t : Z) : tstate :=
  if clock s t =? 0 then s
  else
    let s := set_queue s (seq_remove t (queue s)) in
    let s := set_clock s t 0 in
    let s := set_rnd s t 0 in
    let k := class_of t in
    let s := set_usage s k (usage s k - 1) in
    if ptr_eqb (incb s k) (Some t) then set_stopped s k true else s.

(** the calls, with their trace *)
Definition do_start (s : tstate) (t first interval : Z) : option tstate :=
  match timer_start s t first interval with
  | None => None
  | Some s => Some (push s (EvStart t (clock s t) (period s t) first))
  end.
Definition do_stop (s : tstate) (t : Z) : tstate :=
  if clock s t =? 0 then s else push (timer_stop s t) (EvStop t).
Definition do_op (s : tstate) (o : top) : option tstate :=
  match o with
  | TStart t f i => do_start s t f i
  | TSet t f i => if f =? 0 then Some (do_stop s t) else do_start s t f i  (* 229-239 *)
  | TStop t => Some (do_stop s t)
  | TRemove k => (* 136-151: iteration that saves the next element first *)
      Some (fold_left do_stop (filter (fun t => class_of t =? k) (queue s)) s)
  end.
Fixpoint do_ops (s : tstate) (l : list top) : option tstate :=
  match l with
  | [] => Some s
  | o :: l => match do_op s o with None => None | Some s => do_ops s l end
  end.

Context (cb : list ev -> Z -> list top).

(** oonf_timer.c:260-301, one round of the loop *)
Definition fire (s : tstate) (t : Z) : option tstate :=
  let k := class_of t in
  let s := set_stopped (set_incb s k (Some t)) k false in
  let c := clock s t in
  let s := if period s t =? 0 then timer_stop s t else s in
  let s := push s (EvFire t c (is_active s t)) in
  match do_ops s (cb (log s) t) with
  | None => None
  | Some s =>
    let s := push s (EvDone t) in
    if stopped s k then Some s
    else
      let s := draw s t in
      match timer_start s t (period s t) (period s t) with
      | None => None
      | Some s => Some (push s (EvRearm t (clock s t) (period s t)))
      end
  end.
(** oonf_timer.c:253-302; None also if the fuel runs out *)
Fixpoint walk_loop (fuel : nat) (s : tstate) : option tstate :=
  match fuel with
  | O => None
  | S f =>
    match queue s with
    | [] => Some s
    | t :: _ =>
      if clock s t >? now s then Some s
      else match fire s t with None => None | Some s => walk_loop f s end
    end
  end.
(** oonf_timer.c:246-305.  The fuel (number of running timers plus one) is shown
    to be enough for every callback behaviour. *)
Definition timer_walk (s : tstate) : option tstate := walk_loop (S (length (queue s))) s.

(** oonf_timer.c:311-320 *)
Definition next_event (s : tstate) : Z :=
  match queue s with [] => UINT64_MAX | t :: _ => clock s t end.

(** histories of the whole program *)
Inductive tact := TOp (o : top) | TNow (n : Z) | TWalk.
Definition tstep (s : tstate) (a : tact) : option tstate :=
  match a with
  | TOp o => do_op s o
  | TNow n => Some (push (set_now s n) (EvNow n))   (* oonf_clock.c:109-118 *)
  | TWalk => timer_walk s
  end.
Fixpoint trun (s : tstate) (l : list tact) : option tstate :=
  match l with
  | [] => Some s
  | a :: l => match tstep s a with None => None | Some s => trun s l end
  end.
End Timer.
