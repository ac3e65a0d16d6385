(** Model of src/libconfig/cfg_validate.c and src/libconfig/cfg_tobin.c: the checks
    of configuration values and their conversion into binary form.

    Texts are lists of bytes without the terminating zero.  Checks return whether
    the value is accepted (result 0) and, for integers, whether a message was
    written.  A conversion gets the size of the target from the schema entry
    (cfg_schema.h); the macros make it match, so a size error is not modelled
    except for the size of integers. *)
From Verif Require Import Base BitsModel StrBase IsoModel NetaddrModel StringModel StringSpec.

(** cfg_validate.c:94-105 [cfg_validate_strlen], 67-82 [cfg_validate_printable] *)
Definition validate_strlen (v : bytes) (len : Z) : bool := negb (len <? zlen v).
Definition validate_printable (v : bytes) (len : Z) : bool := validate_strlen v len && is_printable v.
(** cfg_tobin.c:56-68 [cfg_tobin_strarray] into an array of [zlen dst] bytes; None: outside of it *)
Definition tobin_strarray (dst v : bytes) (array_size : Z) : option (Z * bytes) :=
  if zlen dst <? array_size then Some (-1, dst)
  else match strscpy dst 0 (Some (v ++ [0])) array_size with None => None | Some d => Some (0, d) end.

(** cfg.c:187-198 [cfg_get_choice_index] *)
Fixpoint choice_from (key : bytes) (choices : list bytes) (i : Z) : Z :=
  match choices with
  | [] => -1
  | c :: r => if strcase_eqb key c then i else choice_from key r (i + 1)
  end.
Definition choice_index (key : bytes) (choices : list bytes) : Z := choice_from key choices 0.
(** cfg_validate.c:118-132 [cfg_validate_choice], cfg_tobin.c:82-95 [cfg_tobin_choice] *)
Definition validate_choice (v : bytes) (choices : list bytes) : bool := 0 <=? choice_index v choices.
Definition tobin_choice (v : bytes) (choices : list bytes) : Z := choice_index v choices.
(** cfg_schema.h:1325-1331, 476 (CFG_VALIDATE_BOOL), cfg.h:109-111 [cfg_get_bool], cfg_tobin.c:231-243 [cfg_tobin_bool] *)
Definition bool_true : list bytes := [zs "true"; zs "1"; zs "on"; zs "yes"].
Definition bool_all : list bytes := bool_true ++ [zs "false"; zs "0"; zs "off"; zs "no"].
Definition validate_bool (v : bytes) : bool := validate_choice v bool_all.
Definition tobin_bool (v : bytes) : bool := 0 <=? choice_index v bool_true.

(** the loops cfg_validate.c:153 and cfg_tobin.c:117: 64 bit arithmetic *)
Fixpoint scale (fraction : nat) : Z := match fraction with O => 1 | S f => u64 (scale f * 10) end.
(** cfg_validate.c:146-196 [cfg_validate_int] *)
Inductive vres := VRes (accepted message : bool) | VFault | VHang.
Definition validate_int (fuel : nat) (v : bytes) (mn mx bytelen : Z) (fraction : nat) : vres :=
  match iso_to_s64 fuel v (scale fraction) with
  | IErr => VRes false true
  | IFault => VFault
  | IHang => VHang
  | IOk i =>
    if (8 <? bytelen) || (bytelen <? 1) then VFault
    else
      let min64 := Z.shiftr (-9223372036854775808) (8 * (8 - bytelen)) in
      let max64 := Z.shiftr 9223372036854775807 (8 * (8 - bytelen)) in
      let msg := (i <? min64) || (max64 <? i) in
      if i <? mn then VRes false true else if mx <? i then VRes false true else VRes true msg
  end.
(** cfg_tobin.c:107-133 [cfg_tobin_int] into a target of [bytelen] bytes: the number read back from it *)
Definition tobin_int (fuel : nat) (v : bytes) (bytelen : Z) (fraction : nat) : ires :=
  match iso_to_s64 fuel v (scale fraction) with
  | IOk i => if bytelen =? 4 then IOk (s32 i) else if bytelen =? 8 then IOk i else IErr
  | r => r
  end.

(** cfg_validate.c:209-254 [cfg_validate_netaddr]; [parse] is netaddr_from_string (C26) *)
Definition validate_netaddr (parse : bytes -> option netaddr) (v : bytes) (prefix : bool) (af_types : list Z) : bool :=
  match parse v with
  | None => false
  | Some a => negb (maxprefix a <? na_plen a) && (prefix || (na_plen a =? maxprefix a)) && existsb (fun t => t =? na_type a) af_types
  end.
(** cfg_validate.c:267-281 [cfg_validate_acl] *)
Definition validate_acl (parse : bytes -> option netaddr) (v : bytes) (prefix : bool) (af_types : list Z) : bool :=
  match acl_keyword acl_empty v with
  | Some _ => true
  | None => match v with
            | c :: r => if (c =? 43) || (c =? 45) then validate_netaddr parse r prefix af_types else validate_netaddr parse v prefix af_types
            | [] => validate_netaddr parse v prefix af_types
            end
  end.

(** strtol(s, &end, 10) of glibc with a 64 bit long: value and rest; None is ERANGE.
    Without digits the value is 0, the rest is the whole text and errno stays 0. *)
Definition strtol10 (s : bytes) : option (Z * bytes) :=
  let s1 := drop_while isspace s in
  let neg := match s1 with c :: _ => c =? 45 | [] => false end in
  let s2 := match s1 with c :: r => if (c =? 45) || (c =? 43) then r else s1 | [] => s1 end in
  match take_while isdigit s2 with
  | [] => Some (0, s)
  | ds => let v := (if neg then -1 else 1) * digits_val ds 0 in
          if (v <? -9223372036854775808) || (9223372036854775807 <? v) then None else Some (v, drop_while isdigit s2)
  end.
(** cfg_validate.c:292-311 [cfg_validate_bitmap256] *)
Definition validate_bitmap (v : bytes) : bool :=
  strcase_eqb v (zs "all") || strcase_eqb v (zs "none") ||
  match strtol10 v with
  | None => false
  | Some (l, rest) => match rest with [] => (-255 <=? s32 l) && (s32 l <=? 255) | _ => false end
  end.
(** cfg_tobin.c:186-221 [cfg_tobin_bitmap256]: one element of the list *)
Definition bitmap_element (m : bitmap256) (v : bytes) : option bitmap256 :=
  if strcase_eqb v (zs "all") then Some (repeat 18446744073709551615 4)
  else if strcase_eqb v (zs "none") then Some (repeat 0 4)
  else if starts_minus v then
    match strtol10 (tl v) with None => Some m | Some (l, _) => bm_reset m (u8 (s32 l)) end
  else
    match strtol10 v with None => Some m | Some (l, _) => bm_set m (u8 (s32 l)) end.
Fixpoint bitmap_elements (m : bitmap256) (vs : list bytes) : option bitmap256 :=
  match vs with [] => Some m | v :: r => match bitmap_element m v with None => None | Some m' => bitmap_elements m' r end end.
Definition tobin_bitmap (vs : list bytes) : option bitmap256 := bitmap_elements (repeat 0 4) vs.

(** ** Tokens *)
(** a schema entry of a token: its check, its default, and whether it has a conversion *)
Record tentry := { te_check : bytes -> bool; te_def : bytes; te_bin : bool }.
(** the text in the buffer of 256 characters *)
Definition BUF : bytes := repeat 0 256.
(** cfg_validate.c:346-354: [n] rounds; None: outside of the entries, or a NULL pointer for strlen *)
Fixpoint token_loop (entries : list tentry) (i : Z) (n : nat) (ptr : option bytes) : option (bool * option bytes) :=
  match n with
  | O => Some (true, ptr)
  | S n' =>
    match cpynextword BUF ptr 256 with
    | None => None
    | Some (buf, ptr') =>
      match zget entries i with
      | None => None
      | Some e => if te_check e (text buf) then token_loop entries (i + 1) n' ptr' else Some (false, ptr')
      end
    end
  end.
(** cfg_validate.c:325-366 [cfg_validate_tokens]; [custom] is the check of the
    customizer.  The number of words is 32 bit, the number of entries 64 bit *)
Definition validate_tokens (v : bytes) (entries : list tentry) (optional : Z) (custom : option (bytes -> bool)) : option bool :=
  match countwords (Some v) with
  | None => None
  | Some n =>
    let count := u32 n in
    if count <? u64 (zlen entries - optional) then Some false
    else
      (* more rounds than entries end outside of them *)
      match token_loop entries 0 (Z.to_nat (Z.min (u32 (count - 1)) (zlen entries + 1))) (Some v) with
      | None => None
      | Some (false, _) => Some false
      | Some (true, ptr) =>
        match zget entries (u32 (count - 1)), ptr with
        | Some e, Some p => if te_check e p then Some (match custom with None => true | Some f => f v end) else Some false
        | _, _ => None
        end
      end
  end.
(** cfg_tobin.c:280-328 [cfg_tobin_tokens]: the conversions called: index of the entry and text; all succeed *)
Fixpoint tobin_loop (entries : list tentry) (i : Z) (n : nat) (ptr : option bytes) : option (list (Z * bytes) * option bytes) :=
  match n with
  | O => Some ([], ptr)
  | S n' =>
    match zget entries i with
    | None => None
    | Some e =>
      match (match ptr with None => Some (te_def e, None) | Some _ => match cpynextword BUF ptr 256 with None => None | Some (buf, ptr') => Some (text buf, ptr') end end) with
      | None => None
      | Some (w, ptr') =>
        match tobin_loop entries (i + 1) n' ptr' with
        | None => None
        | Some (l, p) => Some ((if te_bin e then [(i, w)] else []) ++ l, p)
        end
      end
    end
  end.
Definition tobin_tokens (v : bytes) (entries : list tentry) : option (list (Z * bytes)) :=
  match tobin_loop entries 0 (Z.to_nat (zlen entries - 1)) (Some v) with
  | None => None
  | Some (l, None) => Some l
  | Some (l, Some p) =>
    match zget entries (zlen entries - 1) with
    | None => None
    | Some e => Some (l ++ if te_bin e then [(zlen entries - 1, p)] else [])
    end
  end.
