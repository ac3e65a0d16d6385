(** C strings as lists of bytes (without the terminating zero) and the
    <ctype.h>/<string.h> functions the code uses, in the "C" locale. *)
From Verif Require Import Base.
From Coq Require String Ascii.
Export String.StringSyntax.
Open Scope Z_scope.
Open Scope list_scope.

(** byte list of a literal *)
Definition zs (s : String.string) : bytes :=
  map (fun a => Z.of_N (Ascii.N_of_ascii a)) (String.list_ascii_of_string s).
Arguments zs _%string_scope.

(** isspace(3), isblank(3), tolower(3), isdigit(3) *)
Definition isspace (c : Z) : bool := (c =? 32) || ((9 <=? c) && (c <=? 13)).
Definition isblank (c : Z) : bool := (c =? 32) || (c =? 9).
Definition tolower (c : Z) : Z := if (65 <=? c) && (c <=? 90) then c + 32 else c.
Definition isdigit (c : Z) : bool := (48 <=? c) && (c <=? 57).

(** drop the longest prefix of characters satisfying [f] *)
Fixpoint drop_while (f : Z -> bool) (s : bytes) : bytes :=
  match s with
  | c :: s' => if f c then drop_while f s' else s
  | [] => []
  end.
Fixpoint take_while (f : Z -> bool) (s : bytes) : bytes :=
  match s with
  | c :: s' => if f c then c :: take_while f s' else []
  | [] => []
  end.

(** string equality (strcmp(a,b)==0) and its case insensitive variant *)
Fixpoint str_eqb (a b : bytes) : bool :=
  match a, b with
  | [], [] => true
  | x :: a', y :: b' => (x =? y) && str_eqb a' b'
  | _, _ => false
  end.
Definition strcase_eqb (a b : bytes) : bool := str_eqb (map tolower a) (map tolower b).

(** decimal text of a non-negative number (printf %d / %u); [fuel] bounds the
    number of digits *)
Fixpoint dec_digits (fuel : nat) (n : Z) (acc : bytes) : bytes :=
  match fuel with
  | O => acc
  | S f => let acc' := (48 + n mod 10) :: acc in
           if n / 10 =? 0 then acc' else dec_digits f (n / 10) acc'
  end.
Definition dec_str (n : Z) : bytes := dec_digits 20 n [].

(** value of a digit string, left to right *)
Definition digits_val (s : bytes) (acc : Z) : Z := fold_left (fun a c => a * 10 + (c - 48)) s acc.

(** strtoul(s, &end, 10) on a 64-bit target: value and rest of the string.
    Overflow gives ULONG_MAX. *)
Definition ULONG_MAX : Z := 18446744073709551615.
Definition strtoul10 (s : bytes) : Z * bytes :=
  let s1 := drop_while isspace s in
  let '(neg, s2) := match s1 with
                    | 45 :: r => (true, r)
                    | 43 :: r => (false, r)
                    | _ => (false, s1) end in
  let ds := take_while isdigit s2 in
  match ds with
  | [] => (0, s)
  | _ => let v := digits_val ds 0 in
         let rest := drop_while isdigit s2 in
         if v >? ULONG_MAX then (ULONG_MAX, rest)
         else ((if neg then u64 (- v) else v), rest)
  end.

Lemma str_eqb_eq a b : str_eqb a b = true <-> a = b.
Proof.
  revert b; induction a as [|x a IH]; intros [|y b]; cbn [str_eqb]; try easy.
  rewrite andb_true_iff, IH, Z.eqb_eq. split; [intros [-> ->]; auto|now intros [= -> ->]].
Qed.
Lemma str_eqb_refl a : str_eqb a a = true.
Proof. now apply str_eqb_eq. Qed.

Lemma take_drop f s : take_while f s ++ drop_while f s = s.
Proof. induction s as [|c s IH]; cbn; auto. destruct (f c); cbn; congruence. Qed.
Lemma take_while_all f s : forallb f (take_while f s) = true.
Proof. induction s as [|c s IH]; cbn; auto. destruct (f c) eqn:E; cbn; auto. now rewrite E. Qed.
Lemma drop_while_head f s c r : drop_while f s = c :: r -> f c = false.
Proof.
  induction s as [|x s IH]; cbn; [discriminate|]. destruct (f x) eqn:E; auto. now intros [= -> _].
Qed.
Lemma drop_while_app_all f a b : forallb f a = true -> drop_while f (a ++ b) = drop_while f b.
Proof.
  induction a as [|c a IH]; cbn; auto. rewrite andb_true_iff. intros [-> H]. auto.
Qed.
Lemma take_while_app_all f a b : forallb f a = true -> take_while f (a ++ b) = a ++ take_while f b.
Proof.
  induction a as [|c a IH]; cbn; auto. rewrite andb_true_iff. intros [-> H]. now rewrite IH.
Qed.
Lemma drop_while_none f s : (forall c r, s = c :: r -> f c = false) -> drop_while f s = s.
Proof. destruct s as [|c s]; cbn; auto. intros H. now rewrite (H c s). Qed.
Lemma take_while_none f s : (forall c r, s = c :: r -> f c = false) -> take_while f s = [].
Proof. destruct s as [|c s]; cbn; auto. intros H. now rewrite (H c s). Qed.
