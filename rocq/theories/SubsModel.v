(** Model of the start and stop of subsystems: src/libcore/oonf_subsystem.c.

    Not modelled: logging, the configuration sections (C100-C102), the search for
    library files.  [init] callbacks are an oracle: whether a callback succeeds may
    depend on everything that happened before; a missing callback is one that does
    nothing and succeeds; a library that cannot be opened again is a failed callback.
    The tree of subsystems (case insensitive names) is a list; its order only
    decides which one is asked first. *)
From Verif Require Import Base StrBase.

Notation name := bytes (only parsing).
(** the tree compares with strcasecmp *)
Definition key (n : name) : name := map tolower n.
Definition keqb (a b : name) : bool := str_eqb (key a) (key b).
(** oonf_subsystem.h [struct oonf_subsystem]: name, dependencies, can_cleanup,
    is there an initiate_shutdown; _initialized, _unload_initiated, _dependency_missing *)
Record plug := { p_name : name; p_deps : list name; p_can : bool; p_down : bool; p_on : bool; p_unl : bool; p_miss : bool }.
(** callbacks that were called, the last one first *)
Inductive event := Started (n : name) (deps : list name) | Failed (n : name) | Stopped (n : name).
Record st := { s_tree : list plug; s_log : list event }.
Definition set_on (b : bool) (p : plug) : plug := {| p_name := p_name p; p_deps := p_deps p; p_can := p_can p; p_down := p_down p; p_on := b; p_unl := p_unl p; p_miss := p_miss p |}.
Definition set_miss (b : bool) (p : plug) : plug := {| p_name := p_name p; p_deps := p_deps p; p_can := p_can p; p_down := p_down p; p_on := p_on p; p_unl := p_unl p; p_miss := b |}.
Definition set_unl (p : plug) : plug := {| p_name := p_name p; p_deps := p_deps p; p_can := p_can p; p_down := p_down p; p_on := p_on p; p_unl := true; p_miss := p_miss p |}.
(** oonf_subsystem.h:187-192 [oonf_subsystem_get] *)
Definition get (n : name) (t : list plug) : option plug := find (fun p => keqb (p_name p) n) t.
Definition upd (n : name) (f : plug -> plug) (t : list plug) : list plug := map (fun p => if keqb (p_name p) n then f p else p) t.
Definition log (e : event) (s : st) : st := {| s_tree := s_tree s; s_log := e :: s_log s |}.
Definition with_tree (s : st) (t : list plug) : st := {| s_tree := t; s_log := s_log s |}.

(** oonf_subsystem.c:235-248 [oonf_subsystem_hook]: of a subsystem as it is in its
    library (all marks false) *)
Definition fresh (p : plug) : plug := {| p_name := p_name p; p_deps := p_deps p; p_can := p_can p; p_down := p_down p; p_on := false; p_unl := false; p_miss := false |}.
Definition hook (p : plug) (s : st) : st :=
  match get (p_name p) (s_tree s) with Some _ => s | None => with_tree s (s_tree s ++ [fresh p]) end.

Section I.
Context (init_ok : list event -> name -> bool).
(** oonf_subsystem.c:394-416: the loop over the dependencies *)
Fixpoint init_deps (init : name -> st -> option (Z * st)) (ds : list name) (s : st) : option (Z * st) :=
  match ds with
  | [] => Some (0, s)
  | d :: ds' =>
      match get d (s_tree s) with
      | None => Some (-1, s)
      | Some q =>
          if p_miss q then Some (1, s) else
          match init d s with
          | None => None
          | Some (r, s') => if r =? -1 then Some (-1, s') else if r =? 1 then Some (1, s') else init_deps init ds' s'
          end
      end
  end.
(** oonf_subsystem.c:381-441 [_init_plugin]; [None]: fuel, or no such subsystem *)
Fixpoint init_plugin (fuel : nat) (n : name) (s : st) : option (Z * st) :=
  match fuel with
  | O => None
  | S f =>
      match get n (s_tree s) with
      | None => None
      | Some p =>
          if p_on p then Some (0, s) else
          match init_deps (init_plugin f) (p_deps p) (with_tree s (upd n (set_miss true) (s_tree s))) with
          | None => None
          | Some (r, s1) =>
              if negb (r =? 0) then Some (r, s1) else
              let s2 := with_tree s1 (upd n (set_miss false) (s_tree s1)) in
              if init_ok (s_log s2) (key n) then Some (0, log (Started (key n) (map key (p_deps p))) (with_tree s2 (upd n (set_on true) (s_tree s2))))
              else Some (-1, log (Failed (key n)) s2)
          end
      end
  end.
End I.

(** oonf_subsystem.c:453-461: for each dependency of each subsystem that is this
    one (strcmp) the name of the subsystem that has it *)
Definition rdeps (n : name) (t : list plug) : list name := flat_map (fun r => map (fun _ => p_name r) (filter (fun d => str_eqb d n) (p_deps r))) t.
Fixpoint clean_all (clean : name -> st -> option st) (l : list name) (s : st) : option st :=
  match l with [] => Some s | q :: l' => match clean q s with None => None | Some s' => clean_all clean l' s' end end.
(** oonf_subsystem.c:443-468 [_cleanup_plugin] *)
Fixpoint cleanup_plugin (fuel : nat) (n : name) (s : st) : option st :=
  match fuel with
  | O => None
  | S f =>
      match get n (s_tree s) with
      | None => None
      | Some p =>
          if negb (p_on p) then Some s else
          match clean_all (cleanup_plugin f) (rdeps (p_name p) (s_tree s)) s with
          | None => None
          | Some s1 => Some (log (Stopped (key n)) (with_tree s1 (upd n (set_on false) (s_tree s1))))
          end
      end
  end.
(** oonf_subsystem.c:477-498 [_unload_plugin]; avl_remove *)
Definition unload_plugin (fuel : nat) (n : name) (final : bool) (s : st) : option (Z * st) :=
  match get n (s_tree s) with
  | None => None
  | Some p =>
      if negb (p_can p) && negb final then Some (-1, s) else
      match (if p_on p then cleanup_plugin fuel n s else Some s) with
      | None => None
      | Some s1 => Some (0, with_tree s1 (filter (fun q => negb (keqb (p_name q) n)) (s_tree s1)))
      end
  end.

(** ** What users of the interface can do *)
Inductive op :=
| Hook (p : plug)            (* oonf_subsystem_hook, by loading a library or a static one *)
| Start (n : name)           (* oonf_subsystem_call_init, 329-333 *)
| Initiate (n : name)        (* oonf_subsystem_initiate_unload, 339-345 *)
| Unload (n : name)          (* oonf_subsystem_unload, 353-359 *)
| Finish.                    (* oonf_subsystem_cleanup, 136-145 *)
(** deep enough (see the proofs) *)
Definition depth (s : st) : nat := S (length (s_tree s)).
Fixpoint finish (l : list name) (s : st) : option st :=
  match l with
  | [] => Some s
  | n :: l' => match unload_plugin (depth s) n true s with None => None | Some (_, s') => finish l' s' end
  end.
Section R.
Context (init_ok : list event -> name -> bool).
(** operations on subsystems that are not there are not possible: result -2.
    [None] is a subsystem that is gone while it is used, or no end *)
Definition step (o : op) (s : st) : option (Z * st) :=
  match o with
  | Hook p => Some (0, hook p s)
  | Start n => match get n (s_tree s) with None => Some (-2, s) | Some _ => init_plugin init_ok (depth s) n s end
  | Initiate n => match get n (s_tree s) with None => Some (-2, s) | Some p => Some (0, if p_down p then with_tree s (upd n set_unl (s_tree s)) else s) end
  | Unload n =>
      match get n (s_tree s) with
      | None => Some (-2, s)
      | Some p => if p_down p && negb (p_unl p) then Some (-1, s) else unload_plugin (depth s) n false s
      end
  | Finish => match finish (map p_name (s_tree s)) s with None => None | Some s' => Some (0, s') end
  end.
Fixpoint run (os : list op) (s : st) : option st :=
  match os with [] => Some s | o :: os' => match step o s with None => None | Some (_, s') => run os' s' end end.
End R.
Definition init : st := {| s_tree := []; s_log := [] |}.

(** ** Names of libraries *)
(** position of the last [c] (strrchr) *)
Fixpoint strrchr (c : Z) (s : bytes) : option Z :=
  match s with
  | [] => None
  | x :: s' => match strrchr c s' with Some i => Some (i + 1) | None => if x =? c then Some 0 else None end
  end.
(** string.h:147-150 [str_startswith_nocase], 174-182 [str_endswith_nocase] *)
Definition startswith_nocase (s p : bytes) : bool := str_eqb (map tolower (firstn (length p) s)) (map tolower p).
Definition endswith_nocase (s p : bytes) : bool :=
  (zlen p <? zlen s) && strcase_eqb (skipn (Z.to_nat (zlen s - zlen p)) s) p.
Definition NAMESIZE : Z := 32.
Inductive ext := Name (n : name) | Overflow (len : Z).
(** oonf_subsystem.c:256-287 [oonf_subsystem_extract_name]: a copy of more bytes
    than the buffer has is an overflow *)
Definition extract_name (prefix postfix lib : bytes) : ext :=
  let stop := zlen lib in
  let start := match strrchr 47 lib with Some i => i | None => match strrchr 92 lib with Some i => i | None => 0 end end in
  let start := if startswith_nocase (skipn (Z.to_nat start) lib) prefix then u64 (start + zlen prefix) else start in
  let stop := if endswith_nocase (skipn (Z.to_nat start) lib) postfix then u64 (stop - zlen prefix) else stop in
  if u64 (stop - start + 1) <=? NAMESIZE
  then if u64 (stop - start) <=? NAMESIZE then Name (firstn (Z.to_nat (u64 (stop - start))) (skipn (Z.to_nat start) lib)) else Overflow (u64 (stop - start))
  else Name [].
