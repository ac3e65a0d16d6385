(** Specification of DLEP sessions (C85-C90). *)
From Verif Require Import Base DlepModel.

(** ** The wire format (RFC 8175, sections 9 and 10) *)

Definition n16 (n : Z) : bytes := [n / 256; n mod 256].
(** A TLV is a type, a length and a value. *)
Definition wire_tlv (p : Z * bytes) : bytes := n16 (fst p) ++ n16 (zlen (snd p)) ++ snd p.
Definition wire (l : list (Z * bytes)) : bytes := flat_map wire_tlv l.
Definition wf_tlv (p : Z * bytes) : Prop := is_u16 (fst p) /\ is_u16 (zlen (snd p)) /\ all_bytes (snd p).
(** A message or signal is a type, a length and TLVs. *)
Definition wire_signal (ty : Z) (l : list (Z * bytes)) : bytes := n16 ty ++ n16 (zlen (wire l)) ++ wire l.

(** The values of the TLVs of type [id]. *)
Definition occurrences (l : list (Z * bytes)) (id : Z) : list bytes := map snd (filter (fun p => fst p =? id) l).
(** The session allows this TLV with this length. *)
Definition fits (ts : list tlv) (p : Z * bytes) : Prop :=
  exists t, In t ts /\ t_id t = fst p /\ t_min t <= zlen (snd p) <= t_max t.

(** ** What the parser offers *)

(** Going from value to value from index [i] gives the byte strings [l]. *)
Inductive values_from (vs : list (option value)) (ptr : bytes) : Z -> list bytes -> Prop :=
| vf_end : values_from vs ptr (-1) []
| vf_next i v pre x post l : zget vs i = Some (Some v) -> ptr = pre ++ x ++ post -> zlen pre = v_index v -> zlen x = v_len v ->
    values_from vs ptr (v_next v) l -> values_from vs ptr i (x :: l).
(** The parsed data shows the TLVs [l]: for each TLV the session knows, the values
    in their order. *)
Definition shows (ts : list tlv) (vs : list (option value)) (ptr : bytes) (l : list (Z * bytes)) : Prop :=
  forall t, In t ts -> values_from vs ptr (t_first t) (occurrences l (t_id t)).

(** ** Sessions *)

(** Registered extensions: sorted by id, three of them the base, and they agree
    about the length of the TLVs they share.  The extensions TLV is part of the
    base.  The TLVs that an extension supports in a signal are its own, of the base,
    or of no extension at all. *)
Definition has_tlv (x : ext) (id : Z) : Prop := exists a, In (id, a) (x_tlvs x).
Record registry (xs : list ext) : Prop := {
  r_count : 3 <= zlen xs <= 7;
  r_nodup : NoDup (map x_id xs);
  r_base : forall x, In x (firstn 3 xs) -> x_id x < 0;
  r_more : forall x, In x (skipn 3 xs) -> 0 <= x_id x < 65536;
  r_len : forall x y id a b, In x xs -> In y xs -> In (id, a) (x_tlvs x) -> In (id, b) (x_tlvs y) -> a = b;
  r_sigs : forall x, In x xs -> NoDup (map s_id (x_sigs x));
  r_ext : exists x, In x (firstn 3 xs) /\ has_tlv x EXTENSIONS_TLV;
  r_supp : forall x g id, In x xs -> In g (x_sigs x) -> In id (s_supp g) ->
    has_tlv x id \/ (exists y, In y (firstn 3 xs) /\ has_tlv y id) \/ (forall y, In y xs -> ~ has_tlv y id) }.

(** A session between two signals: the active extensions are the base and at most
    four others, the allowed TLVs are exactly those of the active extensions. *)
Definition active (xs : list ext) (s : sess) (x : ext) : Prop := In x xs /\ In (x_id x) (q_exts s).
Record sane (xs : list ext) (s : sess) : Prop := {
  n_ids : NoDup (map t_id (q_tlvs s));
  n_max : 0 <= q_max s <= zlen (q_values s);
  n_exts : exists l, q_exts s = map x_id (firstn 3 xs) ++ l /\ zlen l <= 4 /\
           forall e, In e l -> 0 <= e /\ exists x, In x xs /\ x_id x = e;
  n_allowed : forall id a, (exists t, In t (q_tlvs s) /\ t_id t = id /\ (t_min t, t_max t) = a) <->
              exists x, active xs s x /\ In (id, a) (x_tlvs x) }.

(** The ids in the value of an extensions TLV (an odd byte at the end is ignored). *)
Definition id_list (v : bytes) (ids : list Z) : Prop :=
  exists odd, v = flat_map n16 ids ++ odd /\ zlen odd <= 1 /\ Forall is_u16 ids.
(** The callback is called for a signal whose first extensions TLV has these ids. *)
Definition lists_ids (c : call) (ids : list Z) : Prop :=
  (exists t v l, In t (k_tlvs c) /\ t_id t = EXTENSIONS_TLV /\ values_from (k_values c) (k_ptr c) (t_first t) (v :: l) /\ id_list v ids) \/
  (ids = [] /\ forall t, In t (k_tlvs c) -> t_id t = EXTENSIONS_TLV -> t_first t = -1).
(** The extensions are only updated when the peer lists at most four known ones
    (with repetitions) and all active ones that cannot be deactivated. *)
Definition polite (xs : list ext) (cb : oracle) : Prop :=
  forall l c ids, In UpdateExt (fst (cb (l ++ [c]))) -> lists_ids c ids ->
    zlen (filter (fun i => existsb (fun x => x_id x =? i) xs) ids) <= 4 /\
    forall x, In x xs -> 0 <= x_id x -> In (x_id x) ids \/ x_deact x = true.

(** ** Calls (C87) *)

(** Extension [x] has a callback for signal [ty] with these rules. *)
Definition handles (x : ext) (ty : Z) (g : signal) : Prop := In g (x_sigs x) /\ s_id g = ty /\ s_proc g = true.
(** The TLVs of a signal are those an extension wants for it: all that are
    mandatory, and only once unless it says something else. *)
Definition acceptable (g : signal) (l : list (Z * bytes)) : Prop :=
  (forall id, In id (s_mand g) -> occurrences l id <> []) /\
  (forall id, In id (s_supp g) -> ~ In id (s_dup g) -> (length (occurrences l id) <= 1)%nat).
(** A callback is called for a signal with these TLVs. *)
Definition called_for (xs : list ext) (ty : Z) (l : list (Z * bytes)) (c : call) : Prop :=
  k_sig c = ty /\ k_ptr c = wire l /\ shows (k_tlvs c) (k_values c) (k_ptr c) l /\
  exists x g, In x xs /\ x_id x = k_ext c /\ handles x ty g /\ acceptable g l.

(** The callbacks change nothing in the extensions, and accept. *)
Definition quiet (cb : oracle) : Prop := forall l, ~ In UpdateExt (fst (cb l)) /\ snd (cb l) = 0.
(** All active extensions get what they want: TLVs that are mandatory for the signal
    are there; TLVs are only there several times when the active extensions that
    support them allow this (in all of their signals). *)
Definition satisfies (xs : list ext) (s : sess) (ty : Z) (l : list (Z * bytes)) : Prop :=
  forall x g, active xs s x -> In g (x_sigs x) ->
    (s_id g = ty -> forall id, In id (s_mand g) -> occurrences l id <> []) /\
    (forall id, In id (s_supp g) -> ~ In id (s_dup g) -> (length (occurrences l id) <= 1)%nat).
(** The type of a signal, as the parser counts them. *)
Definition sig_type (udp : bool) (ty : Z) : Z := if udp then ty + IS_UDP else ty.
Definition expected (s : sess) (ty : Z) : Prop := q_restrict s = ALL_SIGNALS \/ q_restrict s = ty.

(** ** Streams (C88) *)

(** Equal but for next_restrict_signal, which each signal sets before it is used. *)
Definition same_but_next (s s' : sess) : Prop := set_next s 0 = set_next s' 0.
Definition same_result (r r' : option (sess + sess * bytes)) : Prop :=
  match r, r' with
  | None, None => True
  | Some (inl s), Some (inl s') => same_but_next s s'
  | Some (inr (s, b)), Some (inr (s', b')) => same_but_next s s' /\ b = b'
  | _, _ => False
  end.

(** ** Texts (C90) *)

(** The buffer has the string [t] with its terminating zero. *)
Definition holds_text (buf t : bytes) : Prop := exists rest, buf = t ++ 0 :: rest.

(** ** Writing (C89) *)

(** The TLVs of a signal, one after the other. *)
Fixpoint write_all (out : bytes) (l : list (Z * bytes)) : option bytes :=
  match l with
  | [] => Some out
  | (ty, v) :: l' => match add_tlv out ty v (zlen v) with Some out => write_all out l' | None => None end
  end.
