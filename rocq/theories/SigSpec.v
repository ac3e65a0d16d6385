(** What signed RFC 5444 messages and packets are (RFC 7182, sections 8 and
    12), on the abstract syntax of WireSpec.v and without looking at the code. *)
From Verif Require Import Base BitsModel NetaddrModel ReaderModel ReadDispModel WireSpec SigModel.
From Coq Require Import Permutation.

Definition is_icv (w : wtlv) : bool := w_type w =? 5.
(** the TLVs that are not signatures *)
Definition plain (ws : list wtlv) : list wtlv := filter (fun w => negb (is_icv w)) ws.
Definition zeroed (o : option Z) : option Z := match o with Some _ => Some 0 | None => None end.
(** a message with its signatures taken away and what forwarders change set to zero *)
Definition bare_msg (M : wmsg) : wmsg :=
  {| wm_type := wm_type M; wm_addrlen := wm_addrlen M; wm_orig := wm_orig M;
     wm_hoplimit := zeroed (wm_hoplimit M); wm_hopcount := zeroed (wm_hopcount M); wm_seqno := wm_seqno M;
     wm_tlvs := plain (wm_tlvs M); wm_blocks := wm_blocks M |}.
Definition with_tlvs (M : wmsg) (ws : list wtlv) : wmsg :=
  {| wm_type := wm_type M; wm_addrlen := wm_addrlen M; wm_orig := wm_orig M;
     wm_hoplimit := wm_hoplimit M; wm_hopcount := wm_hopcount M; wm_seqno := wm_seqno M;
     wm_tlvs := ws; wm_blocks := wm_blocks M |}.
(** the same message, perhaps some hops later *)
Definition travelled (M M' : wmsg) : Prop :=
  wm_type M' = wm_type M /\ wm_addrlen M' = wm_addrlen M /\ wm_orig M' = wm_orig M /\ wm_seqno M' = wm_seqno M /\
  wm_tlvs M' = wm_tlvs M /\ wm_blocks M' = wm_blocks M /\
  zeroed (wm_hoplimit M') = zeroed (wm_hoplimit M) /\ zeroed (wm_hopcount M') = zeroed (wm_hopcount M).
(** a packet with its signatures taken away; an empty TLV block goes, too *)
Definition bare_tlvs (o : option (list wtlv)) : option (list wtlv) :=
  match o with
  | None => None
  | Some ws => match plain ws with [] => None | ws' => Some ws' end
  end.
Definition bare_pkt (p : wpkt) : wpkt := {| wp_seqno := wp_seqno p; wp_tlvs := bare_tlvs (wp_tlvs p); wp_msgs := wp_msgs p |}.
Definition tlvs_of (p : wpkt) : list wtlv := match wp_tlvs p with Some ws => ws | None => [] end.

(** The text an ICV is about (RFC 7182, 12.1): source address for a source
    specific one, hash, crypt, key id length and key id, then the data. *)
Definition covered (g : sig) (addr kid body : bytes) : bytes :=
  (if g_srcspec g then addr else []) ++ [g_hash g; g_crypt g; zlen kid] ++ kid ++ body.
Definition sig_value (g : sig) (kid icv : bytes) : bytes := [g_hash g; g_crypt g; zlen kid] ++ kid ++ icv.
Definition sig_ext (g : sig) : Z := if g_srcspec g then 2 else 1.
(** the ICV TLV of a signature *)
Definition sig_tlv (g : sig) (icv : bytes) : wtlv :=
  {| w_type := 5; w_ext := Some (sig_ext g); w_index := WAll;
     w_long := zlen (sig_value g (g_keyid g) icv) >? 255;
     w_value := Some (sig_value g (g_keyid g) icv); w_multi := false |}.

(** the ICV TLVs the reader hands to the callback: those of the block, in
    whatever order *)
Definition shown_icv (w : wtlv) : itlv :=
  {| i_ext := match w_ext w with Some x => x | None => 0 end; i_val := value_bytes w |}.
Definition delivered (ws : list wtlv) (ts : list itlv) : Prop := Permutation ts (map shown_icv (filter is_icv ws)).

(** the contexts of callbacks for a message at [start] and for a packet *)
Definition isS {A} (o : option A) : bool := match o with Some _ => true | None => false end.
Definition msg_ctx (start : Z) (M : wmsg) : sctx :=
  {| c_msg := true; c_type := wm_type M; c_start := start; c_size := msg_size M; c_pktseq := false;
     c_orig := isS (wm_orig M); c_alen := wm_addrlen M; c_hl := isS (wm_hoplimit M); c_hc := isS (wm_hopcount M);
     c_seq := isS (wm_seqno M) |}.
Definition pkt_ctx (p : wpkt) : sctx :=
  {| c_msg := false; c_type := 0; c_start := 0; c_size := zlen (enc_pkt p); c_pktseq := isS (wp_seqno p);
     c_orig := false; c_alen := 0; c_hl := false; c_hc := false; c_seq := false |}.
Definition shape (M : wmsg) : smsg :=
  {| sm_orig := isS (wm_orig M); sm_alen := wm_addrlen M; sm_hl := isS (wm_hoplimit M);
     sm_hc := isS (wm_hopcount M); sm_seq := isS (wm_seqno M) |}.

(** [w] is a signature TLV that speaks for [g] about [body], with key id [kid]
    and ICV [icv] *)
Definition speaks_for (g : sig) (w : wtlv) (kid icv : bytes) : Prop :=
  w_type w = 5 /\ w_ext w = Some (sig_ext g) /\ value_bytes w = sig_value g kid icv /\ icv <> [] /\
  zlen kid < 256 /\ g_verify g kid = IdOkay.
Definition genuine (sign : Z -> Z -> bytes -> bytes -> option bytes) (g : sig) (addr kid icv body : bytes) : Prop :=
  sign (g_hash g) (g_crypt g) (covered g addr kid body) (g_key g) = Some icv.
(** the ICV was made with the key of [g] *)
Definition signed_by (sign : Z -> Z -> bytes -> bytes -> option bytes) (g : sig) (addr : bytes) (ws : list wtlv) (body : bytes) : Prop :=
  exists w kid icv, In w ws /\ speaks_for g w kid icv /\ genuine sign g addr kid icv body.
(** ... or at least the code cannot tell: signing failed or gives another length *)
Definition passes (sign : Z -> Z -> bytes -> bytes -> option bytes) (g : sig) (addr : bytes) (ws : list wtlv) (body : bytes) : Prop :=
  exists w kid icv, In w ws /\ speaks_for g w kid icv /\
    (genuine sign g addr kid icv body \/
     sign (g_hash g) (g_crypt g) (covered g addr kid body) (g_key g) = None \/
     exists s, sign (g_hash g) (g_crypt g) (covered g addr kid body) (g_key g) = Some s /\ zlen s <> zlen icv).
Definition wf_sig (g : sig) : Prop := is_u8 (g_hash g) /\ is_u8 (g_crypt g) /\ zlen (g_keyid g) < 256 /\ all_bytes (g_keyid g).
(** the ICV TLVs among those the reader found in a TLV block *)
Definition received (pkt : bytes) (tlvs : list tlv) : list itlv :=
  map (fun t => {| i_ext := t_ext t;
                   i_val := match t_value t with Some o => firstn (Z.to_nat (t_length t)) (skipn (Z.to_nat o) pkt) | None => [] end |})
      (filter (fun t => t_type t =? 5) tlvs).
