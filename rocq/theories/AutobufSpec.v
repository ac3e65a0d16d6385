(** Specification of autobuf.c: the buffer is a sequence of bytes.  The flag
    tells whether the sequence is promised to be followed by a zero byte. *)
From Verif Require Import Base StringSpec AutobufModel.

(** what a call with the result [r] does *)
Definition aspec (s : bytes * bool) (o : aop) (r : Z) : bytes * bool :=
  let '(c, t) := s in
  if r <? 0 then (c, t)
  else match o with
       | APuts x | AAppendf x | AStrftime x _ => (c ++ x, true)
       | AMemcpy x => (c ++ x, match x with [] => t | _ => true end)
       | APrepend x => (x ++ c, match x with [] => t | _ => true end)
       | APull n => (skipn (Z.to_nat n) c, if n =? 0 then t else false)
       | AClear => ([], t)
       | ASetlen n => (firstn (Z.to_nat n) c, true)
       | AFree => ([], false)
       end.

(** the largest size of an object in memory that is considered: 2^61 bytes *)
Definition max_obj : Z := 2305843009213693952.

(** callers remove or keep only what is in the buffer.  Formatted output that
    cannot allocate memory, and setting the length to its old value, write
    behind the last byte and need the flag. *)
Definition aop_ok (s : bytes * bool) (e : env) (o : aop) : Prop :=
  let '(c, t) := s in
  match o with
  | APuts x => no_nul x /\ zlen x <= 2147483647
  | AMemcpy x | APrepend x => zlen x <= max_obj
  | APull n => 0 <= n <= zlen c
  | AAppendf x => zlen x <= 2147483647 /\ (t = true \/ e_ok e = true /\ zlen c <= max_obj)
  | AStrftime x _ => zlen x <= 2147483647 /\ t = true
  | ASetlen n => 0 <= n < zlen c \/ n = zlen c /\ t = true
  | AClear | AFree => True
  end.

(** the result of a call that succeeds *)
Definition ares (o : aop) : Z :=
  match o with APuts x | AAppendf x | AStrftime x _ => zlen x | _ => 0 end.
Definition added (o : aop) : Z :=
  match o with APuts x | AAppendf x | AStrftime x _ | AMemcpy x | APrepend x => zlen x | _ => 0 end.
(** only these reasons excuse a failure: no memory, or a time text that is empty
    or longer than a page *)
Definition may_fail (page : Z) (c : bytes) (e : env) (o : aop) : Prop :=
  match o with APull _ | AClear | ASetlen _ | AFree => False | _ => True end /\
  (e_ok e = false \/ max_obj < zlen c + added o \/
   exists x j, o = AStrftime x j /\ (x = [] \/ page < zlen x)).

(** [Reach page s a]: some history of legal calls, with any behaviour of the
    allocator, leads from abuf_init to the buffer [a]; by the results of these
    calls the sequence is [s] *)
Inductive Reach (page : Z) : bytes * bool -> abuf -> Prop :=
| Reach_init : forall a, abuf_init page true = Some a -> Reach page ([], true) a
| Reach_step : forall s a e o r a', Reach page s a -> aop_ok s e o -> astep page e a o = Some (r, a') ->
    Reach page (aspec s o r) a'.
