(** Model of src/base/oonf_class.c (object classes: block allocator with a pool of
    recycled blocks, extension of a class with further memory).

    One class is modelled, together with the part of the C heap that holds its
    blocks: [mem a] is the content of the block at address [a], None if there is no
    block.  The free list is kept as a sequence (ListProps shows that list.h refines
    sequences).  The list links stored inside a pooled block are sixteen bytes of
    unspecified value, given with the operation.  The result of calloc is given with
    the operation.  A read or write outside of a block gives None.  Looking up the
    class by name, events to extension callbacks, key strings and logging are left
    out. *)
From Verif Require Import Base ListModel.

Definition LINK : Z := 16.       (* sizeof(struct list_entity) *)

(** oonf_class.c:364-370; the mask is ~(sizeof(struct list_entity) - 1) in size_t *)
Definition roundup (size : Z) : Z :=
  let size := u64 (size + LINK - 1) in
  Z.land size (18446744073709551615 - (LINK - 1)).

(** struct oonf_class (oonf_class.h:82-127), its extensions (136-169) and the heap *)
Record cstate := CS {
  csize : Z;                    (* size *)
  cminfree : Z;                 (* min_free_count *)
  ctotal : Z;                   (* total_size *)
  cfree : list Z;               (* _free_list *)
  cexts : list Z;               (* _extensions *)
  coffset : Z -> Z;             (* _offset of each extension *)
  cesize : Z -> Z;              (* size of each extension, set by its owner *)
  cfreesize : Z;                (* _free_list_size *)
  cusage : Z;                   (* _current_usage *)
  callocated : Z;               (* _allocated *)
  crecycled : Z;                (* _recycled *)
  mem : Z -> option (list Z)
}.

(** oonf_class.c:113-132 *)
Definition class_add (size minfree : Z) (esize : Z -> Z) : cstate :=
  CS size minfree (roundup size) [] [] (fun _ => 0) esize 0 0 0 0 (fun _ => None).

(** memset / memcpy to the start of the block at [a] *)
Definition poke (m : Z -> option (list Z)) (a : Z) (v : list Z) : option (Z -> option (list Z)) :=
  match m a with
  | None => None
  | Some b => if (length v <=? length b)%nat then Some (upd m a (Some (v ++ skipn (length v) b))) else None
  end.

(** oonf_class.c:161-209.  [r] is what calloc returns if it is called; the links of
    the neighbours in the free list, changed by list_remove, are left as they are
    (their value is unspecified anyway) *)
Definition class_malloc (s : cstate) (r : option Z) : option (cstate * option Z) :=
  match cfree s with
  | [] =>
    match r with
    | None => Some (s, None)
    | Some a =>
      Some (CS (csize s) (cminfree s) (ctotal s) [] (cexts s) (coffset s) (cesize s) (cfreesize s) (u32 (cusage s + 1))
               (u32 (callocated s + 1)) (crecycled s) (upd (mem s) a (Some (repeat 0 (Z.to_nat (ctotal s))))), Some a)
    end
  | a :: fl =>
    match poke (mem s) a (repeat 0 (Z.to_nat (ctotal s))) with
    | None => None
    | Some m =>
      Some (CS (csize s) (cminfree s) (ctotal s) fl (cexts s) (coffset s) (cesize s) (u32 (cfreesize s - 1)) (u32 (cusage s + 1))
               (callocated s) (u32 (crecycled s + 1)) m, Some a)
    end
  end.

(** oonf_class.c:216-248.  free() of a block that is not there gives None *)
Definition class_free (s : cstate) (a : Z) (links : list Z) : option cstate :=
  if (cfreesize s <? cminfree s) || (cfreesize s <? cusage s / 10) then
    match poke (mem s) a links with
    | None => None
    | Some m =>
      Some (CS (csize s) (cminfree s) (ctotal s) (cfree s ++ [a]) (cexts s) (coffset s) (cesize s) (u32 (cfreesize s + 1)) (u32 (cusage s - 1))
               (callocated s) (crecycled s) m)
    end
  else
    match mem s a with
    | None => None
    | Some _ =>
      Some (CS (csize s) (cminfree s) (ctotal s) (cfree s) (cexts s) (coffset s) (cesize s) (cfreesize s) (u32 (cusage s - 1))
               (callocated s) (crecycled s) (upd (mem s) a None))
    end.

(** oonf_class.c:376-386 *)
Definition free_freelist (s : cstate) : cstate :=
  CS (csize s) (cminfree s) (ctotal s) [] (cexts s) (coffset s) (cesize s) 0 (cusage s) (callocated s) (crecycled s)
     (fun a => if existsb (Z.eqb a) (cfree s) then None else mem s a).

(** oonf_class.c:256-296; the class exists *)
Definition extension_add (s : cstate) (e : Z) : cstate * Z :=
  if existsb (Z.eqb e) (cexts s) then (s, 0)
  else if negb (callocated s =? 0) && (cesize s e >? 0) then (s, -1)
  else
    let s := CS (csize s) (cminfree s) (ctotal s) (cfree s) (cexts s ++ [e]) (coffset s) (cesize s) (cfreesize s) (cusage s)
                (callocated s) (crecycled s) (mem s) in
    if cesize s e >? 0 then
      let s := free_freelist s in
      (CS (csize s) (cminfree s) (roundup (u64 (ctotal s + cesize s e))) (cfree s) (cexts s) (upd (coffset s) e (ctotal s)) (cesize s)
          (cfreesize s) (cusage s) (callocated s) (crecycled s) (mem s), 0)
    else (s, 0).

(** oonf_class.c:302-308 *)
Definition extension_remove (s : cstate) (e : Z) : cstate :=
  if existsb (Z.eqb e) (cexts s) then
    CS (csize s) (cminfree s) (ctotal s) (cfree s) (filter (fun x => negb (x =? e)) (cexts s)) (upd (coffset s) e 0) (cesize s) (cfreesize s)
       (cusage s) (callocated s) (crecycled s) (mem s)
  else s.

(** the user of a block writes byte [v] at [off] *)
Definition user_write (s : cstate) (a off v : Z) : option cstate :=
  match mem s a with
  | None => None
  | Some b =>
    match zset b off v with
    | None => None
    | Some b => Some (CS (csize s) (cminfree s) (ctotal s) (cfree s) (cexts s) (coffset s) (cesize s) (cfreesize s) (cusage s)
                         (callocated s) (crecycled s) (upd (mem s) a (Some b)))
    end
  end.

Inductive cop :=
| OMalloc (r : option Z)
| OFree (a : Z) (links : list Z)
| OWrite (a off v : Z)
| OExtAdd (e : Z)
| OExtRemove (e : Z).
(** is there a block at this address *)
Definition is_block (s : cstate) (a : Z) : bool := match mem s a with Some _ => true | None => false end.
(** results: the block for malloc (and if it was in the heap before), the return code for extension_add *)
Inductive cres := RBlock (a : option Z) (recycled : bool) | RCode (c : Z) | RNone.

Definition cstep (s : cstate) (o : cop) : option (cstate * cres) :=
  match o with
  | OMalloc r => match class_malloc s r with Some (s', p) => Some (s', RBlock p (match p with Some a => is_block s a | None => false end)) | None => None end
  | OFree a links => match class_free s a links with Some s => Some (s, RNone) | None => None end
  | OWrite a off v => match user_write s a off v with Some s => Some (s, RNone) | None => None end
  | OExtAdd e => let (s, r) := extension_add s e in Some (s, RCode r)
  | OExtRemove e => Some (extension_remove s e, RNone)
  end.
