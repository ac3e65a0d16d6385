(** Model of src/libcommon/autobuf.c and include/oonf/libcommon/autobuf.h.
    [None] is an access outside of the allocated memory (or through NULL).
    The length of [ab_buf] is the size of the allocation, which can be larger
    than [_total] after a failed shrinking realloc.  The size of a page and the
    behaviour of the allocator are parameters: [e_ok] tells whether realloc
    grants the request, [e_junk] is the content of memory that was not yet
    initialised.  realloc never grants more than 2^62 bytes. *)
From Verif Require Import Base BitsModel StrBase StringModel.

(** autobuf.h:58-70 [struct autobuf] *)
Record abuf := { ab_total : Z; ab_len : Z; ab_buf : option bytes; ab_err : bool }.
Record env := { e_ok : bool; e_junk : Z }.

(** getpagesize() *)
Definition page_ok (p : Z) : Prop := exists k, 0 <= k <= 30 /\ p = 2 ^ k.

(** autobuf.c:65-68 [ROUND_UP_TO_POWER_OF_2] (size_t arithmetic) *)
Definition round_up (val pow2 : Z) : Z := Z.land (u64 (val + pow2 - 1)) (u64 (Z.lnot (pow2 - 1))).

(** realloc(3): keeps the common part *)
Definition max_alloc : Z := 4611686018427387904.
Definition realloc (e : env) (old : option bytes) (n : Z) : option bytes :=
  if e_ok e && (n <=? max_alloc)
  then let b := match old with Some b => b | None => [] end in
       Some (firstn (Z.to_nat n) b ++ repeat (e_junk e) (Z.to_nat n - length b))
  else None.

(** a write through the buffer pointer; a write of no bytes through NULL is harmless *)
Definition buf_write (b : option bytes) (off : Z) (d : bytes) : option (option bytes) :=
  match b with
  | Some b => match copy_in b off d with Some b' => Some (Some b') | None => None end
  | None => match d with [] => Some None | _ => None end
  end.

Section Page.
Variable page : Z.

(** autobuf.c:81-92 [abuf_init]: calloc of one page; [None] if that fails *)
Definition abuf_init (ok : bool) : option abuf :=
  if ok then Some {| ab_total := page; ab_len := 0; ab_buf := Some (repeat 0 (Z.to_nat page)); ab_err := false |}
  else None.
(** autobuf.c:99-103 [abuf_free]; "the buffer can still be used afterwards" *)
Definition abuf_free (a : abuf) : abuf := {| ab_total := 0; ab_len := 0; ab_buf := None; ab_err := false |}.

(** autobuf.c:367-391 [_autobuf_enlarge]: result -1 or 0 *)
Definition enlarge (e : env) (a : abuf) (new_size : Z) : option (Z * abuf) :=
  let new_size := u64 (new_size + 1) in
  if new_size >? ab_total a then
    let n := round_up (u64 (new_size + 1)) page in
    match realloc e (ab_buf a) n with
    | None => Some (-1, {| ab_total := ab_total a; ab_len := ab_len a; ab_buf := ab_buf a; ab_err := true |})
    | Some p =>
      (* memset(&_buf[_total], 0, roundUpSize - _total) *)
      match copy_in p (ab_total a) (repeat 0 (Z.to_nat (u64 (n - ab_total a)))) with
      | None => None
      | Some p => Some (0, {| ab_total := n; ab_len := ab_len a; ab_buf := Some p; ab_err := ab_err a |})
      end
    end
  else Some (0, a).

(** write [d] at the buffer offset [off] and set the length *)
Definition put_at (a : abuf) (off : Z) (d : bytes) (len : Z) : option abuf :=
  match buf_write (ab_buf a) off d with
  | None => None
  | Some b => Some {| ab_total := ab_total a; ab_len := len; ab_buf := b; ab_err := ab_err a |}
  end.

(** autobuf.c:160-175 [abuf_puts]; [s] is the text without its terminating zero *)
Definition abuf_puts (e : env) (a : abuf) (s : bytes) : option (Z * abuf) :=
  match enlarge e a (u64 (ab_len a + zlen s + 1)) with
  | None => None
  | Some (r, a) =>
    if r <? 0 then Some (-1, a)
    else match put_at a (ab_len a) (s ++ [0]) (u64 (ab_len a + zlen s)) with
         | None => None
         | Some a => Some (s32 (zlen s), a)
         end
  end.

(** autobuf.c:220-235 [abuf_memcpy] *)
Definition abuf_memcpy (e : env) (a : abuf) (p : bytes) : option (Z * abuf) :=
  if zlen p =? 0 then Some (0, a)
  else match enlarge e a (u64 (ab_len a + zlen p)) with
       | None => None
       | Some (r, a) =>
         if r <? 0 then Some (-1, a)
         else match put_at a (ab_len a) p (u64 (ab_len a + zlen p)) with
              | None => None
              | Some a => match put_at a (ab_len a) [0] (ab_len a) with None => None | Some a => Some (0, a) end
              end
       end.

(** memmove inside of the buffer *)
Definition buf_move (b : option bytes) (dst src n : Z) : option (option bytes) :=
  match b with
  | None => if n =? 0 then Some None else None
  | Some b => match copy_out b src (Z.to_nat n) with
              | None => None
              | Some d => match copy_in b dst d with None => None | Some b' => Some (Some b') end
              end
  end.

(** autobuf.c:244-260 [abuf_memcpy_prepend] *)
Definition abuf_prepend (e : env) (a : abuf) (p : bytes) : option (Z * abuf) :=
  if zlen p =? 0 then Some (0, a)
  else match enlarge e a (u64 (ab_len a + zlen p)) with
       | None => None
       | Some (r, a) =>
         if r <? 0 then Some (-1, a)
         else match buf_move (ab_buf a) (zlen p) 0 (ab_len a) with
              | None => None
              | Some b =>
                match buf_write b 0 p with
                | None => None
                | Some b =>
                  match put_at {| ab_total := ab_total a; ab_len := 0; ab_buf := b; ab_err := ab_err a |}
                               (u64 (ab_len a + zlen p)) [0] (u64 (ab_len a + zlen p)) with
                  | None => None
                  | Some a => Some (0, a)
                  end
                end
              end
       end.

(** autobuf.c:270-299 [abuf_pull] *)
Definition abuf_pull (e : env) (a : abuf) (len : Z) : option abuf :=
  if len =? 0 then Some a
  else match (if len =? ab_len a then Some (ab_buf a) else buf_move (ab_buf a) 0 len (u64 (ab_len a - len))) with
       | None => None
       | Some b =>
         let l := u64 (ab_len a - len) in
         if u64 (l + page) >? ab_total a
         then Some {| ab_total := ab_total a; ab_len := l; ab_buf := b; ab_err := ab_err a |}
         else let total := u64 (ab_total a - page) in
              let newsize := if total <? page then page else total in
              match realloc e b newsize with
              | None => Some {| ab_total := total; ab_len := l; ab_buf := b; ab_err := ab_err a |}
              | Some p => Some {| ab_total := newsize; ab_len := l; ab_buf := Some p; ab_err := ab_err a |}
              end
       end.

(** vsnprintf(3) into [size] bytes at [off]: the text is cut to [size - 1]
    characters and terminated *)
Definition vsnprintf (b : option bytes) (off size : Z) (s : bytes) : option (option bytes) :=
  if size <=? 0 then Some b
  else buf_write b off (firstn (Z.to_nat (size - 1)) s ++ [0]).

(** autobuf.c:402-431 [_vappendf]; [s] is the text that the format and the
    arguments produce *)
Definition abuf_appendf (e : env) (a : abuf) (s : bytes) : option (Z * abuf) :=
  match vsnprintf (ab_buf a) (ab_len a) (u64 (ab_total a - ab_len a)) s with
  | None => None
  | Some b =>
    let a := {| ab_total := ab_total a; ab_len := ab_len a; ab_buf := b; ab_err := ab_err a |} in
    let min_size := u64 (ab_len a + zlen s) in
    if min_size >=? ab_total a then
      match enlarge e a min_size with
      | None => None
      | Some (r, a) =>
        if r <? 0 then match put_at a (ab_len a) [0] (ab_len a) with None => None | Some a => Some (-1, a) end
        else match vsnprintf (ab_buf a) (ab_len a) (u64 (ab_total a - ab_len a)) s with
             | None => None
             | Some b => Some (zlen s, {| ab_total := ab_total a; ab_len := min_size; ab_buf := b; ab_err := ab_err a |})
             end
      end
    else Some (zlen s, {| ab_total := ab_total a; ab_len := min_size; ab_buf := ab_buf a; ab_err := ab_err a |})
  end.

(** strftime(3) into [size] bytes: 0 if the text and its terminator do not fit;
    the memory then holds unspecified characters ([junk]) *)
Definition strftime (b : option bytes) (off size : Z) (s junk : bytes) : option (Z * option bytes) :=
  if zlen s + 1 <=? size
  then match buf_write b off (s ++ [0]) with None => None | Some b => Some (zlen s, b) end
  else match buf_write b off (firstn (Z.to_nat size) junk) with None => None | Some b => Some (0, b) end.

(** autobuf.c:184-211 [abuf_strftime] *)
Definition abuf_strftime (e : env) (a : abuf) (s junk : bytes) : option (Z * abuf) :=
  let upd a b := {| ab_total := ab_total a; ab_len := ab_len a; ab_buf := b; ab_err := ab_err a |} in
  let upl a rc := {| ab_total := ab_total a; ab_len := u64 (ab_len a + rc); ab_buf := ab_buf a; ab_err := ab_err a |} in
  let zero a := match put_at a (ab_len a) [0] (ab_len a) with None => None | Some a => Some (-1, a) end in
  match strftime (ab_buf a) (ab_len a) (u64 (ab_total a - ab_len a)) s junk with
  | None => None
  | Some (rc, b) =>
    let a := upd a b in
    if rc =? 0 then
      match enlarge e a (u64 (ab_total a + page)) with
      | None => None
      | Some (r, a) =>
        if r <? 0 then zero a
        else match strftime (ab_buf a) (ab_len a) (u64 (ab_total a - ab_len a)) s junk with
             | None => None
             | Some (rc, b) => let a := upd a b in if rc =? 0 then zero a else Some (rc, upl a rc)
             end
      end
    else Some (rc, upl a rc)
  end.

(** autobuf.h:87-92 [abuf_clear] *)
Definition abuf_clear (a : abuf) : option abuf :=
  match buf_write (ab_buf a) 0 (repeat 0 (Z.to_nat (ab_total a))) with
  | None => None
  | Some b => Some {| ab_total := ab_total a; ab_len := 0; ab_buf := b; ab_err := false |}
  end.

(** autobuf.h:128-135 [abuf_setlen] *)
Definition abuf_setlen (a : abuf) (len : Z) : option abuf :=
  match buf_write (ab_buf a) len [0] with
  | None => None
  | Some b => Some {| ab_total := ab_total a; ab_len := if ab_total a >? len then len else ab_len a;
                      ab_buf := b; ab_err := false |}
  end.

(** histories of calls; the environment belongs to the single call *)
Inductive aop :=
| APuts (s : bytes) | AMemcpy (p : bytes) | APrepend (p : bytes) | APull (n : Z)
| AAppendf (s : bytes) | AStrftime (s junk : bytes) | AClear | ASetlen (n : Z) | AFree.
Definition astep (e : env) (a : abuf) (o : aop) : option (Z * abuf) :=
  let v r := match r with None => None | Some a => Some (0, a) end in
  match o with
  | APuts s => abuf_puts e a s
  | AMemcpy p => abuf_memcpy e a p
  | APrepend p => abuf_prepend e a p
  | APull n => v (abuf_pull e a n)
  | AAppendf s => abuf_appendf e a s
  | AStrftime s j => abuf_strftime e a s j
  | AClear => v (abuf_clear a)
  | ASetlen n => v (abuf_setlen a n)
  | AFree => Some (0, abuf_free a)
  end.
Fixpoint arun (a : abuf) (h : list (env * aop)) : option (list Z * abuf) :=
  match h with
  | [] => Some ([], a)
  | (e, o) :: h =>
    match astep e a o with
    | None => None
    | Some (r, a) => match arun a h with None => None | Some (rs, a) => Some (r :: rs, a) end
    end
  end.

(** abuf_getlen bytes at abuf_getptr *)
Definition abuf_content (a : abuf) : option bytes :=
  match ab_buf a with
  | None => if ab_len a =? 0 then Some [] else None
  | Some b => copy_out b 0 (Z.to_nat (ab_len a))
  end.
End Page.
