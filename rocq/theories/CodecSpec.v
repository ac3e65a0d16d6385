(** Independent specifications for the RFC 5497 / RFC 7181 codecs and serial
    number arithmetic.  Uses nothing of the model. *)
From Verif Require Import Base.

(** RFC 5497 section 5: the time denoted by code [c] is (1+a/8)*2^b*C with
    c = 8b+a and C = 1000/1024 ms.  [time_num c] is that value times 1024. *)
Definition time_num (c : Z) : Z := 125 * (8 + c mod 8) * 2 ^ (c / 8).

(** The smallest code whose exact value is not below [t] milliseconds. *)
Definition best_time_code (t c : Z) : Prop :=
  0 <= c <= 254 /\ 1024 * t <= time_num c /\
  forall c', 0 <= c' <= 254 -> 1024 * t <= time_num c' -> c <= c'.

(** RFC 7181 section 6: metric value (257+b)*2^a-256 of the code 256a+b. *)
Definition metric_value (code : Z) : Z := (257 + code mod 256) * 2 ^ (code / 256) - 256.

Definition best_metric_code (m code : Z) : Prop :=
  0 <= code < 4096 /\ m <= metric_value code /\
  forall code', 0 <= code' < 4096 -> m <= metric_value code' -> code <= code'.

(** RFC 5497 section 5.? : value list t1 d1 t2 d2 ... tn; the value for
    distance [hop] is the first ti with hop <= di, otherwise tn. *)
Fixpoint vector_value (v : bytes) (hop : Z) : Z :=
  match v with
  | [] => 255
  | t :: rest =>
    match rest with
    | [] => t
    | d :: rest' => if hop <=? d then t else vector_value rest' hop
    end
  end.

(** RFC 1982 style serial arithmetic: a is ahead of b by k steps. *)
Definition ahead (a b k : Z) : Prop := a = (b + k) mod 65536.
