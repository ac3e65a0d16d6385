(** Model of src/libcommon/string.c and include/oonf/libcommon/string.h.
    [None] is an access outside of the memory that was handed over.  Characters
    are bytes 0..255 (the code hands plain [char] values to <ctype.h>; in the
    "C" locale bytes above 127 are in no character class). *)
From Verif Require Import Base BitsModel StrBase NetaddrModel.

(** * Bounded copies *)

(** strlen(3) of the memory [m] at [off] *)
Fixpoint strlen_from (m : bytes) : option Z :=
  match m with
  | [] => None
  | c :: m' => if c =? 0 then Some 0 else match strlen_from m' with None => None | Some n => Some (n + 1) end
  end.
Definition strlen (m : bytes) (off : Z) : option Z :=
  if (off <? 0) then None else strlen_from (skipn (Z.to_nat off) m).

(** strncpy(3): copies up to [n] characters, fills up with zeros *)
Fixpoint strncpy (dest : bytes) (off : Z) (src : bytes) (n : nat) : option bytes :=
  match n with
  | O => Some dest
  | S n' =>
    match src with
    | [] => None
    | c :: src' =>
      if c =? 0 then copy_in dest off (repeat 0 n)
      else match zset dest off c with
           | None => None
           | Some d => strncpy d (off + 1) src' n'
           end
    end
  end.

(** string.c:73-84 [strscpy] to [dest + off]; [src] is the memory readable at
    the source pointer, [None] the NULL pointer *)
Definition strscpy (dest : bytes) (off : Z) (src : option bytes) (size : Z) : option bytes :=
  match src with
  | None => Some dest
  | Some s =>
    if size =? 0 then Some dest
    else match strncpy dest off s (Z.to_nat (size - 1)) with
         | None => None
         | Some d => zset d (off + size - 1) 0
         end
  end.

(** string.c:98-111 [strscat] *)
Definition strscat (dest : bytes) (src : option bytes) (size : Z) : option bytes :=
  match src with
  | None => Some dest
  | Some s =>
    if size =? 0 then Some dest
    else match zget s 0 with
         | None => None
         | Some c =>
           if c =? 0 then Some dest
           else match strlen dest 0 with
                | None => None
                | Some l => if l <? size then strscpy dest l (Some s) (size - l) else Some dest
                end
         end
  end.

(** * Words.  Strings are byte lists without the terminating zero; a pointer
    into the string is the rest of the string behind it. *)

(** string.c:149-174 [str_hasnextword] *)
Fixpoint match_word (buffer word : bytes) : bytes * bytes :=
  match word, buffer with
  | w :: word', b :: buffer' =>
    if negb (isblank b) && (tolower w =? tolower b) then match_word buffer' word' else (buffer, word)
  | _, _ => (buffer, word)
  end.
Definition hasnextword (buffer word : bytes) : option bytes :=
  let '(b, w) := match_word (drop_while isblank buffer) word in
  match w, b with
  | [], [] => Some []
  | [], c :: _ => if isblank c then Some (drop_while isblank b) else None
  | _, _ => None
  end.

(** string.c:184-220 [str_cpynextword]: [i] characters have been written into
    [dst], [room] is len - 1 - i, where len - 1 is calculated modulo 2^64 *)
Fixpoint copy_word (dst : bytes) (i : Z) (src : bytes) (len : Z) : option (bytes * Z * bytes) :=
  match src with
  | c :: src' =>
    if negb (isblank c) && (i <? u64 (len - 1))
    then match zset dst i c with
         | None => None
         | Some d => copy_word d (i + 1) src' len
         end
    else Some (dst, i, src)
  | [] => Some (dst, i, [])
  end.
(** result: destination and pointer to the next word (or NULL) *)
Definition next_or_null (s : bytes) : option bytes :=
  match drop_while isblank s with [] => None | r => Some r end.
Definition cpynextword (dst : bytes) (src : option bytes) (len : Z) : option (bytes * option bytes) :=
  match src with
  | None => match zset dst 0 0 with None => None | Some d => Some (d, None) end
  | Some s =>
    match copy_word dst 0 (drop_while isblank s) len with
    | None => None
    | Some (d, i, r) =>
      match zset d i 0 with
      | None => None
      | Some d' => Some (d', next_or_null r)
      end
    end
  end.

(** string.c:227-256 [str_skipnextword] *)
Definition skipnextword (src : option bytes) : option bytes :=
  match src with
  | None => None
  | Some s => next_or_null (drop_while (fun c => negb (isblank c)) (drop_while isblank s))
  end.

(** string.c:262-280 [str_countwords]; [None]: fuel exhausted *)
Fixpoint count_loop (fuel : nat) (src : option bytes) (count : Z) : option Z :=
  match src with
  | None | Some [] => Some count
  | Some s => match fuel with
              | O => None
              | S f => count_loop f (skipnextword (Some s)) (count + 1)
              end
  end.
Definition countwords (src : option bytes) : option Z :=
  match src with
  | None => Some 0
  | Some s => count_loop (length s) (Some (drop_while isblank s)) 0
  end.

(** string.h:124-128, string.c:289-302 [str_is_printable] *)
Definition char_is_printable (uc : Z) : bool := negb ((uc <? 32) || (uc =? 127) || (uc =? 255)).
Definition is_printable (s : bytes) : bool := forallb char_is_printable s.

(** string.h:135-137 [str_startswith]: strncmp over the length of the pattern *)
Definition startswith (s p : bytes) : bool := str_eqb (firstn (length p) s) p.
(** string.h:157-165 [str_endswith] *)
Definition endswith (s p : bytes) : bool :=
  (zlen s >? zlen p) && str_eqb (skipn (length s - length p) s) p.

(** * Hexadecimal text *)
Definition HEX : bytes := zs "0123456789abcdef".
Definition HEX2 : bytes := zs "0123456789abcdefABCDEF".

(** string.c:312-326 [strhex_from_bin]; result: return code and buffer *)
Fixpoint hex_write (buf : bytes) (j : Z) (src : bytes) : option (bytes * Z) :=
  match src with
  | [] => match zset buf j 0 with None => None | Some b => Some (b, j) end
  | x :: src' =>
    match zget HEX (Z.shiftr x 4), zget HEX (Z.land x 15) with
    | Some h, Some l =>
      match copy_in buf j [h; l] with None => None | Some b => hex_write b (j + 2) src' end
    | _, _ => None
    end
  end.
Definition hex_from_bin (buf : bytes) (buf_len : Z) (src : bytes) : option (Z * bytes) :=
  if buf_len <? zlen src * 2 + 1 then Some (-1, buf)
  else match hex_write buf 0 src with None => None | Some (b, j) => Some (j, b) end.

(** string.c:556-572 [_hexchar_to_value]: position in the table, strchr(3) also
    finds the terminating zero *)
Fixpoint index_of (c : Z) (l : bytes) (i : Z) : option Z :=
  match l with
  | [] => None
  | x :: l' => if x =? c then Some i else index_of c l' (i + 1)
  end.
Definition hexchar_to_value (c : Z) : Z :=
  match index_of c (HEX2 ++ [0]) 0 with
  | None => -1
  | Some v => if v >=? 16 then v - 6 else v
  end.
(** string.c:335-354 [strhex_to_bin]; [src] is a C string *)
Fixpoint hex_read (buf : bytes) (j : Z) (src : bytes) : option (Z * bytes) :=
  match src with
  | a :: b :: src' =>
    let v1 := hexchar_to_value a in
    let v2 := hexchar_to_value b in
    if (v1 <? 0) || (v2 <? 0) then Some (-1, buf)
    else match zset buf j (u8 (Z.lor (Z.shiftl v1 4) v2)) with
         | None => None
         | Some buf' => hex_read buf' (j + 1) src'
         end
  | _ => Some (j, buf)
  end.
Definition hex_to_bin (buf : bytes) (buf_len : Z) (src : bytes) : option (Z * bytes) :=
  if negb (Z.land (zlen src) 1 =? 0) || (buf_len <? zlen src / 2) then Some (-1, buf)
  else hex_read buf 0 src.

(** * String arrays *)

(** string.h:77-83: the memory block at [value] ([None]: NULL) and the length.
    Sizes are not reduced modulo 2^64 (a block is smaller than the address space). *)
Record strarray := { sa_value : option bytes; sa_length : Z }.
Definition sa_init : strarray := {| sa_value := None; sa_length := 0 |}.

(** string.c:59-62 [STRARRAY_MEMSIZE]: next multiple of 64 *)
Definition memsize (n : Z) : Z := (n + 63) - (n + 63) mod 64.

(** realloc(3): [ok] says whether memory is available, [junk] what new memory contains *)
Definition realloc (ok : bool) (junk : nat -> Z) (old : option bytes) (size : Z) : option bytes :=
  if ok then
    let o := match old with None => [] | Some b => b end in
    let n := Z.to_nat size in
    Some (firstn n o ++ map junk (seq 0 (n - length o)))
  else None.

(** outcome of a call: return code and array, [None] is a fault *)
(** string.c:363-383 [strarray_copy] *)
Definition sa_copy (ok : bool) (junk : nat -> Z) (dst src : strarray) : option (Z * strarray) :=
  match sa_value src with
  | None => Some (0, sa_init)
  | Some sv =>
    if sa_length src =? 0 then Some (0, sa_init)
    else
      let block := memsize (sa_length src) in
      match realloc ok junk (sa_value dst) block with
      | None => Some (-1, dst)
      | Some ptr =>
        match copy_out sv 0 (Z.to_nat (sa_length src)) with
        | None => None
        | Some d =>
          match copy_in ptr 0 d with
          | None => None
          | Some ptr1 =>
            match copy_in ptr1 (sa_length src) (repeat 0 (Z.to_nat (block - sa_length src))) with
            | None => None
            | Some ptr2 => Some (0, {| sa_value := Some ptr2; sa_length := sa_length src |})
            end
          end
        end
      end
  end.
(** string.c:392-409 [strarray_append]; [s] is a C string outside of the array *)
Definition sa_append (ok : bool) (junk : nat -> Z) (a : strarray) (s : bytes) : option (Z * strarray) :=
  let len := zlen s + 1 in
  let new_len := sa_length a + len in
  match realloc ok junk (sa_value a) (memsize new_len) with
  | None => Some (-1, a)
  | Some ptr =>
    match copy_in ptr (sa_length a) (s ++ [0]) with
    | None => None
    | Some p => Some (0, {| sa_value := Some p; sa_length := new_len |})
    end
  end.
(** string.c:418-436 [strarray_prepend] *)
Definition sa_prepend (ok : bool) (junk : nat -> Z) (a : strarray) (s : bytes) : option (Z * strarray) :=
  let len := zlen s + 1 in
  let new_len := sa_length a + len in
  match realloc ok junk (sa_value a) (memsize new_len) with
  | None => Some (-1, a)
  | Some ptr =>
    match copy_out ptr 0 (Z.to_nat (sa_length a)) with
    | None => None
    | Some d =>
      match copy_in ptr len d with
      | None => None
      | Some p1 =>
        match copy_in p1 0 (s ++ [0]) with
        | None => None
        | Some p => Some (0, {| sa_value := Some p; sa_length := new_len |})
        end
      end
    end
  end.
(** string.c:444-477 [strarray_remove_ext]; [el] is the offset of the element *)
Definition sa_remove (ok : bool) (junk : nat -> Z) (a : strarray) (el : Z) (resize : bool) : option strarray :=
  match sa_value a with
  | None => None
  | Some v =>
    match strlen v el with
    | None => None
    | Some l =>
      let len := l + 1 in
      if len =? sa_length a then Some sa_init
      else
        let length' := sa_length a - len in
        let moved :=
          if el <=? length' then
            match copy_out v (el + len) (Z.to_nat (length' - el)) with
            | None => None
            | Some d => copy_in v el d
            end
          else Some v in
        match moved with
        | None => None
        | Some v' =>
          if resize then
            match realloc ok junk (Some v') (memsize length') with
            | None => Some {| sa_value := Some v'; sa_length := length' |}
            | Some v'' => Some {| sa_value := Some v''; sa_length := length' |}
            end
          else Some {| sa_value := Some v'; sa_length := length' |}
        end
    end
  end.

(** string.h:355-357 [strarray_for_each_element]: the offsets visited; [None]
    is a fault (or exhausted fuel) *)
Fixpoint sa_offsets_from (fuel : nat) (v : bytes) (len off : Z) : option (list Z) :=
  if off <? len then
    match fuel with
    | O => None
    | S f =>
      match strlen v off with
      | None => None
      | Some l => match sa_offsets_from f v len (off + l + 1) with
                  | None => None
                  | Some r => Some (off :: r)
                  end
      end
    end
  else Some [].
Definition sa_offsets (a : strarray) : option (list Z) :=
  match sa_value a with
  | None => Some []
  | Some v => sa_offsets_from (Z.to_nat (sa_length a)) v (sa_length a) 0
  end.
(** the string at a pointer into the array *)
Definition sa_string (a : strarray) (off : Z) : option bytes :=
  match sa_value a with
  | None => None
  | Some v => match strlen v off with None => None | Some l => copy_out v off (Z.to_nat l) end
  end.
(** string.c:483-492 [strarray_get_count] *)
Definition sa_get_count (a : strarray) : option Z :=
  match sa_offsets a with None => None | Some l => Some (zlen l) end.
(** string.c:499-511 [strarray_get]; [Some None] is the NULL pointer *)
Definition sa_get (a : strarray) (idx : Z) : option (option Z) :=
  match sa_offsets a with None => None | Some l => Some (zget l idx) end.
(** string.h:238-241 [strarray_is_empty] *)
Definition sa_is_empty (a : strarray) : bool := match sa_value a with None => true | Some _ => false end.
(** string.h:308-317 [strarray_get_next_safe]; [Some None] is NULL *)
Definition sa_next_safe (a : strarray) (cur : Z) : option (option Z) :=
  match sa_value a with
  | None => None
  | Some v => match strlen v cur with
              | None => None
              | Some l => let next := cur + l + 1 in
                          if next >? sa_length a then Some None else Some (Some next)
              end
  end.

(** memcmp(3): sign of the first difference *)
Fixpoint memcmp (a b : bytes) : Z :=
  match a, b with
  | x :: a', y :: b' => if x <? y then -1 else if x >? y then 1 else memcmp a' b'
  | _, _ => 0
  end.
(** string.c:520-549 [strarray_cmp] for two array pointers that are not NULL *)
Definition sa_cmp (a1 a2 : strarray) : option Z :=
  match sa_value a1, sa_value a2 with
  | None, None => Some 0
  | None, Some _ => Some (-1)
  | Some _, None => Some 1
  | Some v1, Some v2 =>
    let m := if sa_length a1 >? sa_length a2 then sa_length a2 else sa_length a1 in
    match copy_out v1 0 (Z.to_nat m), copy_out v2 0 (Z.to_nat m) with
    | Some d1, Some d2 =>
      let r := memcmp d1 d2 in
      Some (if r =? 0 then (if sa_length a1 >? sa_length a2 then 1 else if sa_length a1 <? sa_length a2 then -1 else r) else r)
    | _, _ => None
    end
  end.

(** Histories over two arrays: the operations work on the first one, [SaCopy]
    overwrites it with a copy of the second, [SaSwap] changes their roles.
    Removal is by index through [strarray_get], as callers do. *)
Inductive sa_op :=
| SaAppend (ok : bool) (s : bytes)
| SaPrepend (ok : bool) (s : bytes)
| SaRemove (ok : bool) (idx : Z) (resize : bool)
| SaCopy (ok : bool)
| SaFree
| SaSwap.
Definition sa_step (junk : nat -> Z) (st : strarray * strarray) (o : sa_op) : option (strarray * strarray) :=
  let '(a, b) := st in
  match o with
  | SaAppend ok s => match sa_append ok junk a s with None => None | Some (_, a') => Some (a', b) end
  | SaPrepend ok s => match sa_prepend ok junk a s with None => None | Some (_, a') => Some (a', b) end
  | SaRemove ok idx resize =>
    match sa_get a idx with
    | None => None
    | Some None => Some (a, b)
    | Some (Some el) => match sa_remove ok junk a el resize with None => None | Some a' => Some (a', b) end
    end
  | SaCopy ok => match sa_copy ok junk a b with None => None | Some (_, a') => Some (a', b) end
  | SaFree => Some (sa_init, b)
  | SaSwap => Some (b, a)
  end.
Fixpoint sa_run (junk : nat -> Z) (st : strarray * strarray) (ops : list sa_op) : option (strarray * strarray) :=
  match ops with
  | [] => Some st
  | o :: ops' => match sa_step junk st o with None => None | Some st' => sa_run junk st' ops' end
  end.
