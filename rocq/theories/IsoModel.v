(** Model of src/libcommon/isonumber.c: numbers as text with ISO prefixes.
    Texts are lists of bytes without the terminating zero. *)
From Verif Require Import Base StrBase.

(** result of a function that can fail, fault (division by zero, signed
    overflow) or not return *)
Inductive ires := IOk (v : Z) | IErr | IFault | IHang.

Definition U64_MAX : Z := 18446744073709551615.
Definition I64_MIN : Z := -9223372036854775808.

(** strtoull(s, &end, 10) of glibc: value and rest; None is ERANGE.  Without
    digits the value is 0, the rest is the whole text and errno stays 0. *)
Definition strtoull10 (s : bytes) : option (Z * bytes) :=
  let s1 := drop_while isspace s in
  let neg := match s1 with c :: _ => c =? 45 | [] => false end in
  let s2 := match s1 with c :: r => if (c =? 45) || (c =? 43) then r else s1 | [] => s1 end in
  match take_while isdigit s2 with
  | [] => Some (0, s)
  | ds => let v := digits_val ds 0 in
          if v >? U64_MAX then None
          else Some (if neg then u64 (- v) else v, drop_while isdigit s2)
  end.

(** isonumber.c:176-181: digits behind the point *)
Fixpoint frac_loop (s : bytes) (num fs : Z) : Z * Z * bytes :=
  match s with
  | c :: r => if isdigit c then frac_loop r (u64 (u64 (num * 10) + (c - 48))) (u64 (fs * 10)) else (num, fs, s)
  | [] => (num, fs, s)
  end.
(** isonumber.c:183-186 [while (fraction_scale < scaling)]; None: more than [fuel] rounds *)
Fixpoint pad_loop (fuel : nat) (num fs scaling : Z) : option (Z * Z) :=
  if fs <? scaling then
    match fuel with
    | O => None
    | S f => pad_loop f (u64 (num * 10)) (u64 (fs * 10)) scaling
    end
  else Some (num, fs).
(** isonumber.c:211-219 [while (fraction_scale > scaling && fraction_scale >= 1000)];
    seven rounds are enough for a 64 bit number (lemma [cut_fuel]) *)
Fixpoint cut_loop (fuel : nat) (num fs factor scaling : Z) : Z * Z * Z :=
  match fuel with
  | O => (num, fs, factor)
  | S f =>
    if (scaling <? fs) && (1000 <=? fs) then
      if 1 <? factor then cut_loop f num (fs / 1000) (factor / 1000) scaling
      else cut_loop f (num / 1000) (fs / 1000) factor scaling
    else (num, fs, factor)
  end.
(** the letters of " kMGTPE" from index [i]; strchr and the loop isonumber.c:205-208 *)
Definition symbol_large : bytes := zs " kMGTPE".
Definition symbol_small : bytes := zs " munpfa".
Fixpoint strchr_idx (s : bytes) (c : Z) (i : Z) : option Z :=
  match s with
  | [] => None
  | x :: r => if x =? c then Some i else strchr_idx r c (i + 1)
  end.
(** isonumber.c:188-209: spaces and prefix; None is the error result.  The
    factor fits into 64 bits (1000^6) *)
Definition iso_factor (s : bytes) : option Z :=
  match drop_while (fun c => c =? 32) s with
  | [] => Some 1
  | [c] => match strchr_idx symbol_large c 0 with Some i => Some (1000 ^ i) | None => None end
  | _ => None
  end.

(** isonumber.c:155-234 [isonumber_to_u64] *)
Definition iso_to_u64 (fuel : nat) (iso : bytes) (scaling : Z) : ires :=
  match strtoull10 iso with
  | None => IErr
  | Some (num, next) =>
    match next with
    | [] => if scaling =? 0 then IFault
            else if num >? U64_MAX / scaling then IErr else IOk (u64 (num * scaling))
    | c :: r =>
      let '(num, fs, next) := if c =? 46 then frac_loop r num 1 else (num, 1, next) in
      match pad_loop fuel num fs scaling with
      | None => IHang
      | Some (num, fs) =>
        match iso_factor next with
        | None => IErr
        | Some factor =>
          let '(num, fs, factor) := cut_loop 7 num fs factor scaling in
          if num >? U64_MAX / factor then IErr
          else if fs =? 0 then IFault
          else IOk (u64 (u64 (num * factor) * scaling) / fs)
        end
      end
    end
  end.
(** isonumber.c:124-145 [isonumber_to_s64]; the conversion of numbers beyond
    INT64_MAX wraps (gcc), the negation of INT64_MIN is undefined *)
Definition starts_minus (s : bytes) : bool := match s with c :: _ => c =? 45 | [] => false end.
Definition iso_to_s64 (fuel : nat) (iso : bytes) (scaling : Z) : ires :=
  let neg := starts_minus iso in
  let ptr := if neg then tl iso else iso in
  match iso_to_u64 fuel ptr scaling with
  | IOk v => if neg then (if s64 v =? I64_MIN then IFault else IOk (- s64 v)) else IOk (s64 v)
  | r => r
  end.

(** ** Number to text *)
Inductive tres := TOk (t : bytes) | TNull | TFault.

(** isonumber.c:251-257; the modifier is the rest of the symbol text *)
Fixpoint large_loop (sym : bytes) (number scaling : Z) : bytes * Z :=
  match sym with
  | [] => ([], scaling)
  | _ :: r => if number / 1000 >=? scaling then large_loop r number (u64 (scaling * 1000)) else (sym, scaling)
  end.
(** isonumber.c:258-264 *)
Fixpoint small_loop (sym : bytes) (number scaling : Z) : bytes * Z :=
  match sym with
  | [] => ([], scaling)
  | _ :: r => if (number <? scaling) && (scaling >=? 1000) then small_loop r number (scaling / 1000) else (sym, scaling)
  end.
(** isonumber.c:277-297: at most three fractional digits; [idx] characters of
    [out] are kept, up to the last digit that is not 0; None: return NULL *)
Fixpoint frac_digits (fraction : nat) (n scaling : Z) (out : bytes) (idx : Z) : option (bytes * Z) :=
  let n := n mod scaling in
  if n =? 0 then Some (out, idx)
  else match fraction with
       | O => Some (out, idx)
       | S f =>
         let n := u64 (n * 10) in
         let print := n / scaling in
         if print >=? 10 then None
         else let out := out ++ [48 + print] in
              frac_digits f n scaling out (if print =? 0 then idx else zlen out)
       end.
(** string.c:118-140 [str_trim] for texts that begin with a digit *)
Definition rtrim (t : bytes) : bytes := rev (drop_while isspace (rev t)).

(** isonumber.c:248-314 [_isonumber_u64_to_string]; strscat keeps out_len - 1 characters (C28) *)
Definition u64_to_string (out_len : Z) (number : Z) (unit : option bytes) (scaling : Z) (raw : bool) : tres :=
  let '(modifier, scaling) :=
    if number >=? scaling then (if raw then (symbol_large, scaling) else large_loop symbol_large number scaling)
    else (if raw then (symbol_small, scaling) else small_loop symbol_small number scaling) in
  if scaling =? 0 then TFault
  else
    let whole := dec_str (number / scaling) in
    match frac_digits 3 number scaling (whole ++ [46]) (zlen whole) with
    | None => TNull
    | Some (out, idx) =>
      let out := firstn (Z.to_nat idx) out in
      let m := match modifier with [] => [0] | c :: _ => [c] end in
      let out := if raw || str_eqb m [32] then out else if str_eqb m [0] then out else out ++ m in
      let out := match unit with
                 | Some u => if raw then out else firstn (Z.to_nat (out_len - 1)) (out ++ u)
                 | None => out end in
      TOk (rtrim out)
    end.
(** isonumber.c:70-73 [isonumber_from_u64]; sizeof(struct isonumber_str) is 48 *)
Definition iso_from_u64 (number : Z) (unit : option bytes) (scaling : Z) (raw : bool) : tres :=
  u64_to_string 48 number unit scaling raw.
(** isonumber.c:89-114 [isonumber_from_s64] *)
Definition iso_from_s64 (number : Z) (unit : option bytes) (scaling : Z) (raw : bool) : tres :=
  if number <? 0 then
    match u64_to_string 47 (- number) unit scaling raw with
    | TOk t => TOk (45 :: t)
    | r => r
    end
  else u64_to_string 48 number unit scaling raw.
