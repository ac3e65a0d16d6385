(** Model of src/base/oonf_duplicate_set.c (duplicate detection of message
    sequence numbers). *)
From Verif Require Import Base.

(** include/oonf/base/oonf_duplicate_set.h:60-67 *)
Definition MAXIMUM_TOO_OLD : Z := 8.

(** oonf_duplicate_set.h:72-91 *)
Inductive dup_result := TOO_OLD | DUPLICATE | NEW | CURRENT | NEWEST | FIRST.

(** oonf_duplicate_set.h:150-163 *)
Inductive dup_type := BIT8 | BIT16 | BIT32 | BIT64.

(** oonf_duplicate_set.h:96-108, the arithmetic parameters of a set *)
Record dset := { ds_mask : Z; ds_limit : Z; ds_offset : Z }.

(** oonf_duplicate_set.c:107-111 and 138-148 [oonf_duplicate_set_add] *)
Definition mask_value (t : dup_type) : Z :=
  match t with BIT8 => 255 | BIT16 => 65535 | BIT32 => 4294967295 | BIT64 => 0 end.
Definition dset_add (t : dup_type) : dset :=
  match t with
  | BIT64 => {| ds_mask := 0; ds_limit := 0; ds_offset := 0 |}
  | _ => {| ds_mask := mask_value t; ds_limit := mask_value t / 2; ds_offset := mask_value t + 1 |}
  end.

(** oonf_duplicate_set.h:124-145; key, timer and back pointer are kept outside *)
Record dentry := { de_history : Z; de_current : Z; de_too_old : Z }.

(** oonf_duplicate_set.c:271-287 [_seqno_difference] *)
Definition dseqno_difference (set : dset) (s1 s2 : Z) : Z :=
  let diff := u64 (s1 - s2) in
  let reldiff := s64 diff in
  if ds_mask set =? 0 then reldiff
  else
    let r := Z.land reldiff (ds_mask set) in
    if r >? ds_limit set then r - ds_offset set else r.

(** oonf_duplicate_set.c:300-356 [_test].  [1 << 31] (line 331, -diff = 31) is a
    signed shift into the sign bit; it is modelled with the value every
    supported compiler gives it (0x80000000). *)
Definition dup_test (ds : dset) (e : dentry) (seqno : Z) (set : bool) : dup_result * dentry :=
  if seqno =? de_current e then (CURRENT, e)
  else
    let diff := dseqno_difference ds seqno (de_current e) in
    if diff <? -31 then
      let cnt := u16 (de_too_old e + 1) in
      if cnt >? MAXIMUM_TOO_OLD then
        (NEWEST, {| de_history := 1; de_current := seqno; de_too_old := 0 |})
      else (TOO_OLD, {| de_history := de_history e; de_current := de_current e; de_too_old := cnt |})
    else if diff <=? 0 then
      let bitmask := u32 (Z.shiftl 1 (- diff)) in
      if negb (Z.land (de_history e) bitmask =? 0) then
        (DUPLICATE, {| de_history := de_history e; de_current := de_current e; de_too_old := 0 |})
      else
        (NEW, {| de_history := if set then Z.lor (de_history e) bitmask else de_history e;
                 de_current := de_current e; de_too_old := 0 |})
    else
      (NEWEST,
       if set then
         {| de_history := if diff >=? 32 then 1
                          else Z.lor (u64 (Z.shiftl (de_history e) diff)) 1;
            de_current := seqno; de_too_old := 0 |}
       else {| de_history := de_history e; de_current := de_current e; de_too_old := 0 |}).

(** oonf_duplicate_set.h:181-184 [oonf_duplicate_is_new] *)
Definition dup_is_new (r : dup_result) : bool :=
  match r with NEW | NEWEST | FIRST => true | _ => false end.

(** The tree of entries (struct avl_tree keyed by type/originator) as a finite
    map; the AVL implementation itself is the subject of C01-C04.  Keys are any
    type with a decidable equality, like [_avl_cmp_dupkey] = 0 (374-386). *)
Section Set_.
Context {K : Type} (keqb : K -> K -> bool).

Definition dmap := list (K * dentry).

Fixpoint dfind (m : dmap) (k : K) : option dentry :=
  match m with
  | [] => None
  | (k', e) :: m' => if keqb k k' then Some e else dfind m' k
  end.
Fixpoint dremove (m : dmap) (k : K) : dmap :=
  match m with
  | [] => []
  | (k', e) :: m' => if keqb k k' then m' else (k', e) :: dremove m' k
  end.
Fixpoint dupdate (m : dmap) (k : K) (e : dentry) : dmap :=
  match m with
  | [] => [(k, e)]
  | (k', e') :: m' => if keqb k k' then (k', e) :: m' else (k', e') :: dupdate m' k e
  end.

(** oonf_duplicate_set.c:176-229 [oonf_duplicate_entry_add]; [mem] is the
    outcome of the allocation.  The validity timer is modelled by the event
    [Expire] below, which may happen at any time. *)
Definition entry_add (ds : dset) (m : dmap) (k : K) (seqno : Z) (mem : bool) : dup_result * dmap :=
  match dfind m k with
  | None => if mem then (FIRST, dupdate m k {| de_history := 1; de_current := seqno; de_too_old := 0 |})
            else (TOO_OLD, m)
  | Some e => let (r, e') := dup_test ds e seqno true in (r, dupdate m k e')
  end.

(** oonf_duplicate_set.c:242-269 [oonf_duplicate_test] *)
Definition entry_test (ds : dset) (m : dmap) (k : K) (seqno : Z) : dup_result * dmap :=
  match dfind m k with
  | None => (FIRST, m)
  | Some e => let (r, e') := dup_test ds e seqno false in (r, dupdate m k e')
  end.

(** One API event: add, test, or expiry of an entry's validity timer
    (oonf_duplicate_set.c:392-414). *)
Inductive devent := Add (k : K) (seqno : Z) (mem : bool) | Test (k : K) (seqno : Z) | Expire (k : K).

Definition dstep (ds : dset) (m : dmap) (ev : devent) : option dup_result * dmap :=
  match ev with
  | Add k s mem => let (r, m') := entry_add ds m k s mem in (Some r, m')
  | Test k s => let (r, m') := entry_test ds m k s in (Some r, m')
  | Expire k => (None, dremove m k)
  end.

Fixpoint drun (ds : dset) (m : dmap) (evs : list devent) : list (option dup_result) * dmap :=
  match evs with
  | [] => ([], m)
  | ev :: evs' =>
    let (r, m') := dstep ds m ev in
    let (rs, m'') := drun ds m' evs' in (r :: rs, m'')
  end.
End Set_.
