(** DLEP sessions: C85-C90. *)
From Verif Require Import Base BufLemmas SplitLemmas DlepModel DlepSpec DlepProofs DlepProofs2 DlepProofs3 DlepProofs4.

(** ** The registry of this code *)
Definition registry_b (xs : list ext) : bool :=
  (3 <=? zlen xs) && (zlen xs <=? 7) &&
  forallb (fun x => x_id x <? 0) (firstn 3 xs) && forallb (fun x => (0 <=? x_id x) && (x_id x <? 65536)) (skipn 3 xs) &&
  forallb (fun x => forallb (fun y => forallb (fun p => forallb (fun q =>
    negb (fst p =? fst q) || ((fst (snd p) =? fst (snd q)) && (snd (snd p) =? snd (snd q)))) (x_tlvs y)) (x_tlvs x)) xs) xs &&
  existsb (fun x => existsb (fun p => fst p =? EXTENSIONS_TLV) (x_tlvs x)) (firstn 3 xs) &&
  forallb (fun x => forallb (fun g => forallb (fun id =>
    existsb (fun p => fst p =? id) (x_tlvs x) || existsb (fun y => existsb (fun p => fst p =? id) (x_tlvs y)) (firstn 3 xs) ||
    forallb (fun y => forallb (fun p => negb (fst p =? id)) (x_tlvs y)) xs) (s_supp g)) (x_sigs x)) xs.
Fixpoint nodup_b (l : list Z) : bool := match l with [] => true | x :: l' => negb (existsb (Z.eqb x) l') && nodup_b l' end.
Lemma nodup_sound l : nodup_b l = true -> NoDup l.
Proof.
  induction l as [|x l IH]; cbn; [constructor|]. intros H. apply andb_true_iff in H. destruct H as (A & B). constructor; auto. intros I. apply negb_true_iff in A.
  assert (existsb (Z.eqb x) l = true) by (apply existsb_exists; exists x; split; auto; apply Z.eqb_refl). congruence.
Qed.
Lemma has_b x id : existsb (fun p => fst p =? id) (x_tlvs x) = true -> has_tlv x id.
Proof. intros H. apply existsb_exists in H. destruct H as ([i a] & I & E). apply Z.eqb_eq in E. cbn in E. subst. exists a. auto. Qed.
Lemma registry_sound xs : registry_b xs = true -> nodup_b (map x_id xs) = true -> forallb (fun x => nodup_b (map s_id (x_sigs x))) xs = true -> registry xs.
Proof.
  unfold registry_b. rewrite !andb_true_iff. intros ((((((A1 & A2) & B) & C) & D) & E) & F) N G. apply Z.leb_le in A1, A2. rewrite forallb_forall in *. constructor.
  - lia.
  - now apply nodup_sound.
  - intros x I. apply B in I. lia.
  - intros x I. apply C in I. lia.
  - intros x y id [a1 a2] [b1 b2] X Y P Q. specialize (D x X). rewrite forallb_forall in D. specialize (D y Y). rewrite forallb_forall in D. specialize (D _ P). rewrite forallb_forall in D. specialize (D _ Q). cbn in D. rewrite Z.eqb_refl in D. cbn in D. apply andb_true_iff in D. f_equal; lia.
  - intros x I. apply nodup_sound. auto.
  - apply existsb_exists in E. destruct E as (x & I & H). exists x. split; auto. now apply has_b.
  - intros x g id X Gi I. specialize (F x X). rewrite forallb_forall in F. specialize (F g Gi). rewrite forallb_forall in F. specialize (F id I). rewrite !orb_true_iff in F. destruct F as [[F|F]|F].
    + left. now apply has_b.
    + right. left. apply existsb_exists in F. destruct F as (y & Y & H). exists y. split; auto. now apply has_b.
    + right. right. intros y Y (a & Ha). rewrite forallb_forall in F. specialize (F y Y). rewrite forallb_forall in F. specialize (F _ Ha). cbn in F. rewrite Z.eqb_refl in F. discriminate.
Qed.
(** The tables of the code meet the conditions of the theorems. *)
Theorem C85_registry : forall radio, registry (all_exts radio).
Proof. intros radio. apply registry_sound; destruct radio; vm_compute; reflexivity. Qed.

(** ** C85: parsing is memory safe *)

(** No stream of bytes makes the parser of a session leave its buffers, as long as
    the extensions are updated from lists with at most four known ids (with
    repetitions) that have all extensions without a callback for deactivation.
    The full claim has no such condition, see the refutations. *)
Theorem C85_safe_partial : forall xs cb restrict chunks, registry xs -> polite xs cb -> Forall all_bytes chunks ->
  exists s r, session_add xs restrict = Some (0, s) /\ tcp_run xs cb s [] chunks = Some r.
Proof.
  intros xs cb restrict chunks R P F. destruct (session_add_ok xs R restrict) as (s & A & B & _). destruct (tcp_run_ok xs R cb P chunks s [] B (Forall_nil _) F) as (r & C & _). eauto.
Qed.
(** The same for datagrams; the bytes used are never more than there are. *)
Theorem C85_udp_partial : forall xs cb restrict buf, registry xs -> polite xs cb -> all_bytes buf ->
  exists s r s', session_add xs restrict = Some (0, s) /\ process_buffer xs cb s buf (zlen buf) true = Some (r, s') /\ (r = -1 \/ 0 <= r <= zlen buf).
Proof.
  intros xs cb restrict buf R P A. destruct (session_add_ok xs R restrict) as (s & A1 & B & _). destruct (process_buffer_ok xs R cb P s buf true B A) as (r & s' & new & C & D & E & _). exists s, r, s'. auto.
Qed.
(** The allowed TLVs are exactly those of the active extensions, always. *)
Theorem C85_allowed_partial : forall xs cb restrict chunks s r, registry xs -> polite xs cb -> Forall all_bytes chunks ->
  session_add xs restrict = Some (0, s) -> tcp_run xs cb s [] chunks = Some r ->
  let s' := match r with inl s' => s' | inr (s', _) => s' end in
  (forall x, In x (firstn 3 xs) -> active xs s' x) /\
  forall id a, (exists t, In t (q_tlvs s') /\ t_id t = id /\ (t_min t, t_max t) = a) <-> exists x, active xs s' x /\ In (id, a) (x_tlvs x).
Proof.
  intros xs cb restrict chunks s r R P F A T. destruct (session_add_ok xs R restrict) as (s0 & A0 & B & _). rewrite A in A0. injection A0 as <-.
  destruct (tcp_run_ok xs R cb P chunks s [] B (Forall_nil _) F) as (r' & C & D). rewrite T in C. injection C as <-.
  assert (S : sane xs (match r with inl s' => s' | inr (s', _) => s' end)) by (destruct r as [s'|[s' b]]; [auto|tauto]).
  split; [|exact (n_allowed _ _ S)]. intros x X. split; [now apply in_firstn|]. destruct (n_exts _ _ S) as (l & -> & _). apply in_or_app. left. now apply in_map.
Qed.

(** An example: a peer that lists all four extensions, twice. *)
Definition listing (l : list call) : bool :=
  match rev l with
  | c :: _ =>
    existsb (fun t => t_id t =? 6) (k_tlvs c) &&
    forallb (fun t => negb (t_id t =? 6) ||
      match zget (k_values c) (t_first t) with
      | Some (Some v) => if list_eq_dec Z.eq_dec (firstn (Z.to_nat (v_len v)) (skipn (Z.to_nat (v_index v)) (k_ptr c))) [255; 240; 255; 241; 255; 242; 255; 243] then true else false
      | _ => false
      end) (k_tlvs c)
  | [] => false
  end.
Definition careful : oracle := fun l => (if listing l then [UpdateExt; SetNext ALL_SIGNALS] else [SetNext ALL_SIGNALS], 0).
Lemma careful_polite radio : polite (all_exts radio) careful.
Proof.
  intros l c ids U Li. unfold careful in U. destruct (listing (l ++ [c])) eqn:E; [|cbn in U; destruct U as [U|[]]; discriminate]. unfold listing in E. rewrite rev_app_distr in E. cbn [rev app] in E.
  apply andb_true_iff in E. destruct E as (E1 & E2). apply existsb_exists in E1. destruct E1 as (t0 & I0 & T0). apply Z.eqb_eq in T0. rewrite forallb_forall in E2.
  assert (V : forall t, In t (k_tlvs c) -> t_id t = 6 -> exists v, zget (k_values c) (t_first t) = Some (Some v) /\ firstn (Z.to_nat (v_len v)) (skipn (Z.to_nat (v_index v)) (k_ptr c)) = [255; 240; 255; 241; 255; 242; 255; 243]).
  { intros t I T. specialize (E2 t I). rewrite T in E2. cbn in E2. destruct (zget (k_values c) (t_first t)) as [[v|]|]; try discriminate. destruct (list_eq_dec Z.eq_dec _ _); [eauto|discriminate]. }
  assert (ids = [65520; 65521; 65522; 65523]) as ->.
  { destruct Li as [(t & v & l' & I & T & Vf & Il)|(_ & No)].
    - destruct (V t I T) as (w & W1 & W2). destruct (values_inv _ _ _ _ Vf) as [(_ & Q)|(w' & pre & x & post & l2 & Z1 & P1 & P2 & P3 & _ & Q)]; [discriminate|]. injection Q as <- <-. rewrite Z1 in W1. injection W1 as ->.
      rewrite P1, (skipn_zapp _ _ _ P2), <- P3, firstn_exact in W2. rewrite W2 in Il.
      pose proof (ext_ids_list _ _ [] Il) as Ei. rewrite app_nil_r in Ei. vm_compute in Ei. now injection Ei.
    - destruct (V t0 I0 T0) as (v & Z1 & _). rewrite (No t0 I0 T0) in Z1. apply zget_bound in Z1. lia. }
  split; [destruct radio; vm_compute; discriminate|]. intros x X Nn. destruct radio; cbn in X; repeat (destruct X as [<-|X]; [cbn in *; solve [lia|tauto]|]); destruct X.
Qed.
(** a session initialization: heartbeat, peer type, extensions *)
Definition init_tlvs (exts : bytes) : list (Z * bytes) := [(5, [0; 0; 3; 232]); (4, [0; 82]); (6, exts)].
Definition all_four : bytes := [255; 240; 255; 241; 255; 242; 255; 243].
Definition new_session (radio : bool) (r : Z) : sess := match session_add (all_exts radio) r with Some (_, s) => s | None => mkSess 0 0 [] [] 0 [] [] [] end.
Definition seen (r : option (sess + sess * bytes)) : option (Z * list Z * list (Z * Z) * list Z * bytes) :=
  match r with
  | Some (inr (s, b)) => Some (q_restrict s, q_exts s, map (fun c => (k_ext c, k_sig c)) (q_calls s), q_out s, b)
  | Some (inl s) => Some (q_restrict s, q_exts s, map (fun c => (k_ext c, k_sig c)) (q_calls s), q_out s, [-1])
  | None => None
  end.
Example C85_ex :
  polite (all_exts true) careful /\
  seen (tcp_run (all_exts true) careful (new_session true 1) [] [wire_signal 1 (init_tlvs all_four); wire_signal 16 [] ++ [0; 16]]) =
    Some (ALL_SIGNALS, [-3; -2; -1; 65520; 65521; 65522; 65523], [(-3, 1); (-3, 16)], [], [0; 16]).
Proof. split; [apply careful_polite|vm_compute; reflexivity]. Qed.

(** The callback of the radio for a session initialization, and of the router for its
    answer, update the extensions without any check. *)
Definition updates : oracle := fun l =>
  match rev l with
  | c :: _ => (if (k_ext c =? -3) && ((k_sig c =? 1) || (k_sig c =? 2)) then [UpdateExt; SetNext ALL_SIGNALS] else [], 0)
  | [] => ([], 0)
  end.
(** Refuted: a peer that lists a known extension twice makes the parser write behind
    the array of extensions. *)
Theorem C85_extension_overflow_refuted : exists msg, all_bytes msg /\
  msg = wire_signal 1 (init_tlvs (all_four ++ [255; 240])) /\ tcp_run (all_exts true) updates (new_session true 1) [] [msg] = None /\
  tcp_run (all_exts true) updates (new_session true 1) [] [wire_signal 1 (init_tlvs all_four)] <> None.
Proof.
  eexists. split; [|split; [reflexivity|split; [vm_compute; reflexivity|vm_compute; discriminate]]].
  apply Forall_forall. intros x I. vm_compute in I. unfold is_u8. repeat (destruct I as [<-|I]; [lia|]). destruct I.
Qed.
(** Refuted: a peer that does not support one of the extensions 65520-65522 makes the
    parser call a NULL pointer; so does one without the optional extensions TLV. *)
Theorem C85_deactivate_null_refuted :
  tcp_run (all_exts true) updates (new_session true 1) [] [wire_signal 1 [(5, [0; 0; 3; 232]); (4, [0; 82])]] = None /\
  tcp_run (all_exts true) updates (new_session true 1) [] [wire_signal 1 (init_tlvs [255; 241; 255; 242; 255; 243])] = None /\
  (* without the extension for link ids alone there is no problem *)
  tcp_run (all_exts true) updates (new_session true 1) [] [wire_signal 1 (init_tlvs [255; 240; 255; 241; 255; 242])] <> None.
Proof. split; [vm_compute; reflexivity|]. split; [vm_compute; reflexivity|vm_compute; discriminate]. Qed.

(** ** C86: the parser offers exactly the TLVs of a signal *)
Theorem C86_parse : forall xs s buf length, sane xs s -> all_bytes buf -> 0 <= length <= zlen buf -> length <= 65535 ->
  exists r s', parse_tlvstream s buf length = Some (r, s') /\
    (* accepted are exactly the encodings of allowed TLVs *)
    (r = P_OKAY <-> exists L, firstn (Z.to_nat length) buf = wire L /\ Forall wf_tlv L /\ Forall (fits (q_tlvs s)) L) /\
    (* which can be found afterwards, in their order *)
    (forall L, r = P_OKAY -> firstn (Z.to_nat length) buf = wire L -> Forall wf_tlv L ->
       shows (q_tlvs s') (q_values s') (firstn (Z.to_nat length) buf) L /\ map t_id (q_tlvs s') = map t_id (q_tlvs s)).
Proof.
  intros xs s buf length Sn A B C. destruct (parse_tlvstream_ok s buf length (n_ids _ _ Sn) (n_max _ _ Sn) A B ltac:(lia)) as (r & s' & P1 & P2 & P3 & P4 & P5 & P6). exists r, s'. split; auto. split.
  - destruct P6 as [(-> & L & Rd & _)|(Nr & No)]; [split; eauto|]. split; [intros; contradiction|]. intros (L & Q). destruct (No L Q).
  - intros L -> E W. destruct P6 as [(_ & M & (R1 & R2 & R3) & Pi)|(Nr & _)]; [|now destruct Nr]. rewrite R1 in E. apply (wire_inj M L R2 W) in E. subst M. split; [|exact (key_ids _ _ P3)].
    rewrite R1. intros t I. apply tlv_values; [exact (i_val _ _ _ _ Pi)|exact (i_tlv _ _ _ _ Pi t I)].
Qed.
Example C86_ex : match parse_tlvstream (new_session true 1) (wire [(8, [1; 10; 0; 0; 1]); (5, [0; 0; 3; 232]); (8, [1; 10; 0; 0; 2])] ++ [7]) 26 with
  | Some (r, s) => r = P_OKAY /\ first_value (q_tlvs s) (q_values s) (wire [(8, [1; 10; 0; 0; 1]); (5, [0; 0; 3; 232]); (8, [1; 10; 0; 0; 2])]) 5 = Some (Some ([0; 0; 3; 232; 0; 8; 0; 5; 1; 10; 0; 0; 2], 4)) /\
    firstn 3 (q_values s) = [Some (mkV 2 4 5); Some (mkV (-1) 13 4); Some (mkV (-1) 21 5)]
  | None => False
  end.
Proof. vm_compute. auto. Qed.

(** ** C87: calls of the extensions *)

(** Extensions are only called for signals that are complete, expected, have
    only allowed TLVs, and the TLVs the extension wants; they can read exactly the
    TLVs of the signal.  Missing for the full claim: TLVs that the signal does not
    support and signals that nobody knows are accepted, see the refutations. *)
Theorem C87_calls_partial : forall xs cb s ptr udp, registry xs -> polite xs cb -> sane xs s -> all_bytes ptr ->
  exists r s' new, process_signal xs cb s ptr (zlen ptr) udp = Some (r, s') /\ sane xs s' /\ q_calls s' = q_calls s ++ new /\
    (new <> [] -> exists ty L rest, ptr = wire_signal ty L ++ rest /\ is_u16 ty /\ is_u16 (zlen (wire L)) /\ Forall wf_tlv L /\ Forall (fits (q_tlvs s)) L /\
                  expected s (sig_type udp ty) /\ Forall (called_for xs (sig_type udp ty) L) new).
Proof. intros xs cb s ptr udp R P Sn A. destruct (process_signal_ok xs R cb P s ptr udp Sn A) as (r & s' & new & B & C & _ & D & E). exists r, s', new. auto. Qed.
(** The same for all calls in the life of a session. *)
Theorem C87_stream_partial : forall xs cb restrict buf udp, registry xs -> polite xs cb -> all_bytes buf ->
  exists s r s', session_add xs restrict = Some (0, s) /\ process_buffer xs cb s buf (zlen buf) udp = Some (r, s') /\
    forall c, In c (q_calls s') -> exists pre ty L rest, buf = pre ++ wire_signal ty L ++ rest /\ Forall wf_tlv L /\ called_for xs (sig_type udp ty) L c.
Proof.
  intros xs cb restrict buf udp R P A. destruct (session_add_ok xs R restrict) as (s & A1 & B & _ & B2 & _). destruct (process_buffer_ok xs R cb P s buf udp B A) as (r & s' & new & C & _ & _ & D & E). exists s, r, s'. split; auto. split; auto.
  rewrite B2 in D. cbn in D. rewrite D. intros c I. rewrite Forall_forall in E. exact (E c I).
Qed.
(** Complete and expected signals that satisfy all active extensions reach each of
    them that has a callback, once. *)
Theorem C87_delivered : forall xs cb s ty udp L rest, registry xs -> quiet cb -> sane xs s ->
  Forall wf_tlv L -> Forall (fits (q_tlvs s)) L -> is_u16 ty -> is_u16 (zlen (wire L)) -> all_bytes rest ->
  expected s (sig_type udp ty) -> satisfies xs s (sig_type udp ty) L ->
  exists s' new, process_signal xs cb s (wire_signal ty L ++ rest) (zlen (wire_signal ty L ++ rest)) udp = Some (4 + zlen (wire L), s') /\
    q_calls s' = q_calls s ++ new /\ NoDup (map k_ext new) /\
    (forall e, In e (map k_ext new) <-> exists x g, active xs s x /\ x_id x = e /\ handles x (sig_type udp ty) g) /\
    (forall c, In c new -> k_sig c = sig_type udp ty /\ k_ptr c = wire L /\ shows (k_tlvs c) (k_values c) (k_ptr c) L).
Proof.
  intros xs cb s ty udp L rest R Q Sn W F U1 U2 A Ex Sa. destruct (delivered xs R cb Q s ty udp L rest Sn W F U1 U2 A Ex Sa) as (s' & new & B & C & D & E & G & _). exists s', new. auto.
Qed.
(** A signal whose content is not a sequence of allowed TLVs reaches nobody and
    ends the session. *)
Theorem C87_rejected : forall xs cb s ty udp body rest, registry xs -> sane xs s -> is_u16 ty -> is_u16 (zlen body) -> all_bytes body -> all_bytes rest ->
  expected s (sig_type udp ty) -> (forall L, body = wire L -> Forall wf_tlv L -> ~ Forall (fits (q_tlvs s)) L) ->
  exists s', process_signal xs cb s (n16 ty ++ n16 (zlen body) ++ body ++ rest) (4 + zlen body + zlen rest) udp = Some (4 + zlen body, s') /\
    q_calls s' = q_calls s /\
    (q_restrict s <> UDP_DISCOVERY -> q_restrict s <> UDP_OFFER -> q_restrict s' = TERMINATION_ACK /\ q_out s' = q_out s ++ [TERMINATION]).
Proof.
  intros xs cb s ty udp body rest R Sn U1 U2 A1 A2 Ex No. destruct (rejected xs cb R s ty udp body rest Sn U1 U2 A1 A2 Ex No) as (s' & B & C & _ & D). exists s'. auto.
Qed.
(** A signal that is not expected reaches nobody; the result ends the connection. *)
Theorem C87_unexpected : forall xs cb s ptr udp, all_bytes ptr -> ~ (exists ty rest, ptr = n16 ty ++ rest /\ is_u16 ty /\ expected s (sig_type udp ty)) ->
  exists r s', process_signal xs cb s ptr (zlen ptr) udp = Some (r, s') /\ (r = 0 \/ r = -1) /\ q_calls s' = q_calls s.
Proof.
  intros xs cb s ptr udp A N. unfold process_signal. destruct (Z.ltb_spec (zlen ptr) 4); [eexists; eexists; split; [reflexivity|]; auto|].
  destruct (signal_split ptr A ltac:(lia)) as (ty & len & G1 & G2 & U1 & U2 & Sp & _). rewrite G1, G2. fold (sig_type udp ty). destruct (zlen ptr <? len + 4); [eexists; eexists; split; [reflexivity|]; auto|].
  cbn [q_restrict set_next]. destruct (Z.eqb_spec (q_restrict s) ALL_SIGNALS) as [E|E]; [destruct N; exists ty, (n16 len ++ skipn 4 ptr); split; [exact Sp|split; [auto|left; auto]]|].
  destruct (Z.eqb_spec (q_restrict s) (sig_type udp ty)) as [E2|E2]; [destruct N; exists ty, (n16 len ++ skipn 4 ptr); split; [exact Sp|split; [auto|right; auto]]|].
  cbn. eexists; eexists; split; [reflexivity|]; auto.
Qed.
Definition silent : oracle := fun _ => ([], 0).
(** a destination-up signal with MAC address and an address *)
Definition dest_up : list (Z * bytes) := [(7, [2; 0; 0; 0; 0; 1]); (8, [1; 10; 0; 0; 1]); (8, [1; 10; 0; 0; 2])].
Example C87_ex :
  quiet silent /\ sane (all_exts false) (new_session false ALL_SIGNALS) /\ satisfies (all_exts false) (new_session false ALL_SIGNALS) 7 dest_up /\
  Forall wf_tlv dest_up /\ Forall (fits (q_tlvs (new_session false ALL_SIGNALS))) dest_up /\
  seen (tcp_run (all_exts false) silent (new_session false ALL_SIGNALS) [] [wire_signal 7 dest_up]) =
    Some (ALL_SIGNALS, [-3; -2; -1; 65520; 65521; 65522; 65523], [(-3, 7); (-2, 7); (-1, 7); (65520, 7); (65521, 7)], [], []).
Proof.
  split; [intros l; cbn; auto|]. split.
  { destruct (session_add_ok (all_exts false) (C85_registry false) ALL_SIGNALS) as (s & A & B & _). unfold new_session. now rewrite A. }
  split.
  { intros x g (X & _) G. cbn in X. repeat (destruct X as [<-|X]; [cbn in G; repeat (destruct G as [<-|G]; [split; [cbn; intros; try discriminate; intuition (subst; vm_compute; discriminate) | cbn; intros; intuition (subst; vm_compute; (lia || (exfalso; auto)))]|]); destruct G|]); destruct X. }
  split; [repeat constructor; vm_compute; intuition discriminate|]. split; [|vm_compute; reflexivity].
  assert (forall id v lo hi, In (id, v) dest_up -> In (mkT id (-1) (-1) lo hi) (q_tlvs (new_session false ALL_SIGNALS)) -> lo <= zlen v <= hi -> fits (q_tlvs (new_session false ALL_SIGNALS)) (id, v)) as H.
  { intros id v lo hi _ I B. exists (mkT id (-1) (-1) lo hi). auto. }
  unfold dest_up. constructor; [apply (H _ _ 6 8); vm_compute; intuition discriminate|]. constructor; [apply (H _ _ 5 5); vm_compute; intuition discriminate|]. constructor; [apply (H _ _ 5 5); vm_compute; intuition discriminate|constructor].
Qed.

(** Refuted: a signal nobody knows is accepted, without any reaction (RFC 8175,
    section 12.1 demands the termination of the session). *)
Theorem C87_unknown_signal_refuted : exists ty, (forall x g, In x (all_exts false) -> In g (x_sigs x) -> s_id g <> ty) /\
  seen (tcp_run (all_exts false) silent (new_session false ALL_SIGNALS) [] [wire_signal ty []]) =
    Some (ALL_SIGNALS, [-3; -2; -1; 65520; 65521; 65522; 65523], [], [], []).
Proof.
  exists 99. split; [|vm_compute; reflexivity]. intros x g X G. cbn in X. repeat (destruct X as [<-|X]; [cbn in G; repeat (destruct G as [<-|G]; [cbn; discriminate|]); destruct G|]). destruct X.
Qed.
(** Refuted: a TLV that no extension supports in the signal does not stop it: a
    heartbeat with an address and a latency. *)
Theorem C87_unsupported_tlv_refuted : exists ty L,
  (forall x g id, In x (all_exts false) -> In g (x_sigs x) -> s_id g = ty -> In id (map fst L) -> ~ In id (s_supp g)) /\ L <> [] /\
  seen (tcp_run (all_exts false) silent (new_session false ALL_SIGNALS) [] [wire_signal ty L]) =
    Some (ALL_SIGNALS, [-3; -2; -1; 65520; 65521; 65522; 65523], [(-3, 16)], [], []).
Proof.
  exists 16, [(8, [1; 10; 0; 0; 1]); (16, [0; 0; 0; 0; 0; 0; 0; 1])]. split; [|split; [discriminate|vm_compute; reflexivity]].
  intros x g id X G E _. cbn in X. repeat (destruct X as [<-|X]; [cbn in G; repeat (destruct G as [<-|G]; [try (cbn in E; discriminate); cbn; tauto|]); destruct G|]). destruct X.
Qed.
(** Refuted: extensions that come first process a signal that a later extension
    rejects: the base protocol and the metric get a destination-up that ends the
    session because of a duplicate of the physical layer. *)
Theorem C87_partial_processing_refuted : exists L,
  seen (tcp_run (all_exts false) silent (new_session false ALL_SIGNALS) [] [wire_signal 7 L]) =
    Some (TERMINATION_ACK, [-3; -2; -1; 65520; 65521; 65522; 65523], [(-3, 7); (-2, 7); (-1, 7)], [TERMINATION], []).
Proof. exists (dest_up ++ [(65415, [0; 0; 0; 1]); (65415, [0; 0; 0; 1])]). vm_compute. reflexivity. Qed.
(** Refuted: the metric extension supports the MTU (TLV 20) in a session
    initialization acknowledgement, but no table allows this TLV: a peer that sends it
    loses the session. *)
Definition init_ack : list (Z * bytes) :=
  [(5, [0; 0; 3; 232]); (1, [0]); (4, [0; 82]); (12, [0; 0; 0; 0; 0; 0; 0; 1]); (13, [0; 0; 0; 0; 0; 0; 0; 1]); (14, [0; 0; 0; 0; 0; 0; 0; 1]);
   (15, [0; 0; 0; 0; 0; 0; 0; 1]); (16, [0; 0; 0; 0; 0; 0; 0; 1]); (65408, [0; 0; 0; 0; 0; 0; 0; 1]); (65409, [0; 0; 0; 0; 0; 0; 0; 1])].
Theorem C87_mtu_refuted :
  (exists g, In g (x_sigs (base_metric false)) /\ s_id g = 2 /\ In 20 (s_supp g)) /\
  seen (tcp_run (all_exts false) silent (new_session false 2) [] [wire_signal 2 (init_ack ++ [(20, [5; 220])])]) =
    Some (TERMINATION_ACK, [-3; -2; -1; 65520; 65521; 65522; 65523], [], [TERMINATION], []) /\
  seen (tcp_run (all_exts false) silent (new_session false 2) [] [wire_signal 2 init_ack]) =
    Some (2, [-3; -2; -1; 65520; 65521; 65522; 65523], [(-3, 2); (-2, 2); (-1, 2); (65520, 2); (65521, 2); (65522, 2); (65523, 2)], [], []).
Proof. split; [eexists; split; [now left|]; cbn; tauto|]. split; vm_compute; reflexivity. Qed.

(** ** C88: the chunks of the stream do not matter *)
Theorem C88_chunks : forall xs cb s chunks, q_restrict s <> KILL_SESSION -> Forall all_bytes chunks ->
  same_result (tcp_run xs cb s [] chunks) (process_tcp xs cb s [] (concat chunks)).
Proof. intros. now apply chunks_ok. Qed.
Example C88_ex : forall n, (n <= 30)%nat ->
  seen (tcp_run (all_exts true) careful (new_session true 1) [] [firstn n (wire_signal 1 (init_tlvs all_four) ++ wire_signal 16 []); []; skipn n (wire_signal 1 (init_tlvs all_four) ++ wire_signal 16 [])]) =
    Some (ALL_SIGNALS, [-3; -2; -1; 65520; 65521; 65522; 65523], [(-3, 1); (-3, 16)], [], []).
Proof. intros n H. do 31 (destruct n as [|n]; [vm_compute; reflexivity|]). lia. Qed.

(** ** C89: what is written is what is read *)

(** The functions of the writer produce the encoding of the TLVs, behind what was
    in the buffer before; longer signals give an error. *)
Theorem C89_write : forall out ty L, is_u16 ty -> Forall wf_tlv L ->
  exists o, write_all (fst (start_signal out ty)) L = Some o /\
    (zlen (wire L) <= 65535 -> finish_signal o (snd (start_signal out ty)) = Some (0, out ++ wire_signal ty L)) /\
    (65535 < zlen (wire L) -> exists o', finish_signal o (snd (start_signal out ty)) = Some (-1, o')).
Proof.
  intros out ty L U W. exists (fst (start_signal out ty) ++ wire L). split; [apply write_all_ok; auto|]. split; [intros; apply finish_ok; auto|]. intros H. eexists. apply finish_long; auto.
Qed.
(** Numbers, extension lists and texts arrive as they were given. *)
Theorem C89_heartbeat : forall out n post, 0 <= n < 2 ^ 32 ->
  exists v, add_heartbeat out n = Some (out ++ wire_tlv (5, v)) /\ wf_tlv (5, v) /\ zlen v = 4 /\ read_heartbeat (v ++ post) = Some n.
Proof. intros. apply heartbeat_ok. auto. Qed.
Theorem C89_uint64 : forall out ty n post, is_u16 ty -> 0 <= n < 2 ^ 64 ->
  exists v, add_uint64 out n ty = Some (out ++ wire_tlv (ty, v)) /\ wf_tlv (ty, v) /\ zlen v = 8 /\ read_uint64 (v ++ post) = Some n.
Proof. intros. apply uint64_ok; auto. Qed.
Theorem C89_lid_length : forall out n post, is_u16 n ->
  exists v, add_lid_length out n = Some (out ++ wire_tlv (22, v)) /\ wf_tlv (22, v) /\ zlen v = 2 /\ read_lid_length (v ++ post) = Some n.
Proof. intros. apply lid_length_ok; auto. Qed.
Theorem C89_extensions : forall out ids post, Forall is_u16 ids -> zlen ids <= 32767 ->
  exists v, add_extensions out ids = Some (out ++ wire_tlv (6, v)) /\ wf_tlv (6, v) /\ ext_ids (v ++ post) 0 (Z.to_nat (zlen v / 2)) = Some ids.
Proof. intros out ids post U L. destruct (extensions_ok out ids U L) as (v & A & B & C). exists v. split; auto. split; auto. apply ext_ids_list; auto. Qed.
Theorem C89_status : forall out st t buf post, is_u8 st -> all_bytes t -> zlen t <= 65534 -> zlen t < zlen buf < 2 ^ 64 ->
  exists v buf', add_status out st t = Some (0, out ++ wire_tlv (1, v)) /\ wf_tlv (1, v) /\ read_status (v ++ post) (zlen v) buf = Some (st, buf') /\ holds_text buf' t.
Proof.
  intros out st t buf post U A L B. pose proof (zlen_nonneg t). exists (st :: t). unfold add_status. destruct (Z.ltb_spec 65534 (zlen t)); [lia|]. rewrite (u8_id st) by auto. rewrite add_tlv2_ok by (auto; su).
  destruct (read_status_ok st t post buf ltac:(lia) ltac:(unfold u64max; lia)) as (buf' & R1 & R2 & R3). exists buf'. split; auto. split.
  { split; [cbn [fst]; su|]. split; [unfold is_u16; cbn [snd]; rewrite zlen_cons; lia|]. cbn [snd]. constructor; auto. }
  split; [rewrite zlen_cons, Z.add_comm; exact R1|]. assert (buf <> []) as N by (intros ->; unfold zlen in B; cbn in B; lia). specialize (R3 N). rewrite firstn_all2 in R3 by (unfold zlen in *; lia). exact R3.
Qed.
Theorem C89_peer_type : forall out (sec : bool) t buf post, t <> [] -> all_bytes t -> zlen t <= 65534 -> zlen t + 2 <= zlen buf < 2 ^ 64 ->
  exists v buf', add_peer_type out t sec = Some (out ++ wire_tlv (4, v)) /\ wf_tlv (4, v) /\ read_peer_type (v ++ post) (zlen v) buf = Some (0, sec, buf') /\ holds_text buf' t.
Proof.
  intros out sec t buf post Nt A L B. pose proof (zlen_nonneg t). exists ((if sec then 1 else 0) :: t). unfold add_peer_type. rewrite add_tlv2_ok by (auto; su).
  destruct (read_peer_type_ok (if sec then 1 else 0) t post buf Nt ltac:(lia) ltac:(unfold u64max; lia)) as (buf' & R1 & R2 & R3). exists buf'. split; auto. split.
  { split; [cbn [fst]; su|]. split; [unfold is_u16; cbn [snd]; rewrite zlen_cons; lia|]. cbn [snd]. constructor; auto. destruct sec; unfold is_u8; lia. }
  split; [rewrite zlen_cons, Z.add_comm; cbn [app]; rewrite R1; destruct sec; reflexivity|]. rewrite firstn_all2 in R3 by (unfold zlen in *; lia). exact R3.
Qed.
Example C89_ex : write_all (fst (start_signal [9] 1)) (init_tlvs all_four) = Some ([9; 0; 1; 0; 0] ++ wire (init_tlvs all_four)) /\
  finish_signal ([9; 0; 1; 0; 0] ++ wire (init_tlvs all_four)) 1 = Some (0, [9; 0; 1; 0; 26; 0; 5; 0; 4; 0; 0; 3; 232; 0; 4; 0; 2; 0; 82; 0; 6; 0; 8; 255; 240; 255; 241; 255; 242; 255; 243]).
Proof. split; vm_compute; reflexivity. Qed.
(** Refuted: signed numbers (dlep_writer_add_int64 uses htonl on 64 bits)
    are never read as they were written, except for zero. *)
Theorem C89_int64_refuted : forall out ty n post, is_u16 ty -> - 2 ^ 63 <= n < 2 ^ 63 -> n <> 0 ->
  exists v m, add_int64 out n ty = Some (out ++ wire_tlv (ty, v)) /\ read_int64 (v ++ post) = Some m /\ m <> n.
Proof. intros out ty n post U B N. destruct (int64_value out ty n post U) as (v & A & C). exists v, (s64 (u32 n * 4294967296)). split; auto. split; auto. apply int64_wrong; auto. Qed.
(** Refuted: a signal that is too long is reported but stays in the buffer, with
    length zero: the peer takes its TLVs for signals. *)
Theorem C89_too_long_refuted : forall out ty L, is_u16 ty -> Forall wf_tlv L -> 65535 < zlen (wire L) ->
  exists o, write_all (fst (start_signal out ty)) L = Some o /\ finish_signal o (snd (start_signal out ty)) = Some (-1, out ++ n16 ty ++ [0; 0] ++ wire L).
Proof.
  intros out ty L U W B. exists (fst (start_signal out ty) ++ wire L). split; [apply write_all_ok; auto|]. rewrite finish_long by auto. unfold start_signal. cbn [fst]. rewrite be16_n16 by auto. now rewrite <- !app_assoc.
Qed.

(** ** C90: texts from the peer *)

(** The text of a status ends in a zero inside of the buffer, and is the
    longest part of the text that fits. *)
Theorem C90_status : forall st t post buf, zlen t <= 65534 -> 0 < zlen buf < 2 ^ 64 ->
  exists buf', read_status (st :: t ++ post) (1 + zlen t) buf = Some (st, buf') /\ zlen buf' = zlen buf /\ holds_text buf' (firstn (Z.to_nat (zlen buf - 1)) t).
Proof.
  intros st t post buf L B. destruct (read_status_ok st t post buf ltac:(lia) ltac:(unfold u64max; lia)) as (buf' & R1 & R2 & R3). exists buf'. split; auto. split; auto. apply R3. intros ->. unfold zlen in B. cbn in B. lia.
Qed.
(** The same for peer types, with a buffer of at least two bytes and a text; the last
    character is lost even when it would fit. *)
Theorem C90_peer_type_partial : forall f t post buf, t <> [] -> zlen t <= 65534 -> 2 <= zlen buf < 2 ^ 64 ->
  exists buf', read_peer_type (f :: t ++ post) (1 + zlen t) buf = Some (0, negb (Z.land f 1 =? 0), buf') /\ zlen buf' = zlen buf /\ holds_text buf' (firstn (Z.to_nat (zlen buf - 2)) t).
Proof. intros f t post buf N L B. apply read_peer_type_ok; unfold u64max; (assumption || lia). Qed.
Example C90_ex : read_status ([0] ++ [72; 101; 108; 108; 111] ++ [9]) 6 [1; 1; 1] = Some (0, [72; 101; 0]) /\ read_peer_type ([1] ++ [72; 101; 108; 108; 111] ++ [9]) 6 [1; 1; 1; 1] = Some (0, true, [72; 101; 0; 1]).
Proof. split; vm_compute; reflexivity. Qed.
(** Refuted: with a buffer of one byte the length of the copy underflows. *)
Theorem C90_small_buffer_refuted : forall f t post b, t <> [] -> zlen t + zlen post < 2 ^ 32 -> read_peer_type (f :: t ++ post) (1 + zlen t) [b] = None.
Proof.
  intros f t post b N L. unfold read_peer_type. assert (0 < zlen t) by (destruct t; [congruence|]; rewrite zlen_cons; pose proof (zlen_nonneg t); lia).
  destruct (Z.eqb_spec (1 + zlen t) 0); [lia|]. change (zget (f :: t ++ post) 0) with (Some f). change (zlen [b]) with 1. destruct (Z.ltb_spec 1 (1 + zlen t)); [|lia]. cbn [andb Z.ltb Z.compare].
  destruct (Z.ltb_spec (1 + zlen t - 1) (1 - 1)); [lia|]. unfold copy_text. change (u64 (1 - 2)) with 18446744073709551615. rewrite zlen_cons, zlen_app. destruct (Z.ltb_spec (zlen t + zlen post + 1) (18446744073709551615 + 1)); [reflexivity|lia].
Qed.
(** Refuted: a text that fits with its zero is cut; without a text the buffer is left
    as it was, although its caller prints it (ext_base_proto/proto.c,
    dlep_base_proto_print_peer_type). *)
Theorem C90_peer_type_cut_refuted : exists t buf buf', zlen t < zlen buf /\ read_peer_type (0 :: t) (1 + zlen t) buf = Some (0, false, buf') /\ ~ holds_text buf' t.
Proof.
  exists [72; 105], [1; 1; 1], [72; 0; 1]. split; [vm_compute; reflexivity|]. split; [vm_compute; reflexivity|]. intros (rest & E). discriminate.
Qed.
Theorem C90_no_text_refuted : forall f post buf, read_peer_type (f :: post) 1 buf = Some (0, negb (Z.land f 1 =? 0), buf).
Proof. intros. reflexivity. Qed.

Print Assumptions C85_registry.
Print Assumptions C85_safe_partial.
Print Assumptions C85_udp_partial.
Print Assumptions C85_allowed_partial.
Print Assumptions C85_extension_overflow_refuted.
Print Assumptions C85_deactivate_null_refuted.
Print Assumptions C86_parse.
Print Assumptions C87_calls_partial.
Print Assumptions C87_stream_partial.
Print Assumptions C87_delivered.
Print Assumptions C87_rejected.
Print Assumptions C87_unexpected.
Print Assumptions C87_unknown_signal_refuted.
Print Assumptions C87_unsupported_tlv_refuted.
Print Assumptions C87_partial_processing_refuted.
Print Assumptions C87_mtu_refuted.
Print Assumptions C88_chunks.
Print Assumptions C89_write.
Print Assumptions C89_heartbeat.
Print Assumptions C89_uint64.
Print Assumptions C89_lid_length.
Print Assumptions C89_extensions.
Print Assumptions C89_status.
Print Assumptions C89_peer_type.
Print Assumptions C89_int64_refuted.
Print Assumptions C89_too_long_refuted.
Print Assumptions C90_status.
Print Assumptions C90_peer_type_partial.
Print Assumptions C90_small_buffer_refuted.
Print Assumptions C90_peer_type_cut_refuted.
Print Assumptions C90_no_text_refuted.
