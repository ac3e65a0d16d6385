(** RFC 5444 packets as abstract syntax and their wire format (RFC 5444,
    sections 5.1 to 5.4), written without looking at the reader or the
    writer.  What the reader shows to consumers is compared with it
    (WireReadProps.v). *)
From Verif Require Import Base BitsModel NetaddrModel ReaderModel ReadDispModel.

(** a 16 bit number, most significant byte first *)
Definition be16 (n : Z) : bytes := [n / 256; n mod 256].
Definition opt1 (o : option Z) : bytes := match o with Some x => [x] | None => [] end.
Definition has {A} (o : option A) (bit : Z) : Z := match o with Some _ => bit | None => 0 end.

(** ** TLVs, section 5.4 *)
Inductive windex := WAll | WOne (i : Z) | WRange (first last : Z).
Record wtlv := {
  w_type : Z; w_ext : option Z; w_index : windex;
  w_long : bool;             (* 16 bit length field *)
  w_value : option bytes;    (* None: no length and no value *)
  w_multi : bool             (* one value for each index *)
}.
Definition tlv_flags (w : wtlv) : Z :=
  has (w_ext w) 0x80 + match w_index w with WAll => 0 | WOne _ => 0x40 | WRange _ _ => 0x20 end
  + match w_value w with None => 0 | Some _ => if w_long w then 0x18 else 0x10 end
  + if w_multi w then 0x04 else 0.
Definition enc_tlv (w : wtlv) : bytes :=
  [w_type w; tlv_flags w] ++ opt1 (w_ext w)
  ++ match w_index w with WAll => [] | WOne i => [i] | WRange a b => [a; b] end
  ++ match w_value w with
     | None => []
     | Some v => (if w_long w then be16 (zlen v) else [zlen v]) ++ v
     end.
Definition enc_tlvs (ws : list wtlv) : bytes := be16 (zlen (flat_map enc_tlv ws)) ++ flat_map enc_tlv ws.

(** the addresses a TLV of a block with [n] addresses belongs to *)
Definition first_index (w : wtlv) : Z := match w_index w with WAll => 0 | WOne i => i | WRange a _ => a end.
Definition last_index (n : Z) (w : wtlv) : Z := match w_index w with WAll => n - 1 | WOne i => i | WRange _ b => b end.
Definition value_bytes (w : wtlv) : bytes := match w_value w with Some v => v | None => [] end.
Definition values (n : Z) (w : wtlv) : Z := if w_multi w then last_index n w - first_index w + 1 else 1.

(** [n] is the number of addresses of the block, 0 for packet and message TLVs *)
Definition wf_tlv (n : Z) (w : wtlv) : Prop :=
  is_u8 (w_type w) /\ (forall x, w_ext w = Some x -> is_u8 x) /\
  all_bytes (value_bytes w) /\ zlen (value_bytes w) < (if w_long w then 65536 else 256) /\
  (if n =? 0 then w_index w = WAll /\ w_multi w = false
   else 0 <= first_index w <= last_index n w /\ last_index n w < n /\
        zlen (value_bytes w) mod (values n w) = 0).

(** does the TLV belong to address [i], and which value does it have there?
    Packet and message TLVs belong to the packet or message as a whole. *)
Definition concerns (n : Z) (w : wtlv) (i : Z) : Prop := n = 0 \/ first_index w <= i <= last_index n w.
Definition value_at (n : Z) (w : wtlv) (i : Z) : bytes :=
  let k := zlen (value_bytes w) / values n w in
  if w_multi w then firstn (Z.to_nat k) (skipn (Z.to_nat ((i - first_index w) * k)) (value_bytes w))
  else value_bytes w.

(** ** Address blocks, section 5.3 *)
Inductive wtail := TNone | TZero (n : Z) | TFull (t : bytes).
Inductive wplen := PNone | PSame (p : Z) | PEach (ps : list Z).
Record wblock := { wb_head : bytes; wb_tail : wtail; wb_mids : list bytes; wb_plen : wplen; wb_tlvs : list wtlv }.
Definition wb_num (b : wblock) : Z := zlen (wb_mids b).
Definition block_flags (b : wblock) : Z :=
  match wb_head b with [] => 0 | _ => 0x80 end
  + match wb_tail b with TNone => 0 | TZero _ => 0x20 | TFull _ => 0x40 end
  + match wb_plen b with PNone => 0 | PSame _ => 0x10 | PEach _ => 0x08 end.
Definition enc_addrs (b : wblock) : bytes :=
  [wb_num b; block_flags b]
  ++ match wb_head b with [] => [] | h => zlen h :: h end
  ++ match wb_tail b with TNone => [] | TZero n => [n] | TFull t => zlen t :: t end
  ++ concat (wb_mids b)
  ++ match wb_plen b with PNone => [] | PSame p => [p] | PEach ps => ps end.
Definition enc_block (b : wblock) : bytes := enc_addrs b ++ enc_tlvs (wb_tlvs b).

Definition tail_bytes (b : wblock) : bytes :=
  match wb_tail b with TNone => [] | TZero n => repeat 0 (Z.to_nat n) | TFull t => t end.
(** address number [i] of a block, and its prefix length *)
Definition address (b : wblock) (i : Z) : option bytes :=
  match zget (wb_mids b) i with Some m => Some (wb_head b ++ m ++ tail_bytes b) | None => None end.
Definition prefix_length (al : Z) (b : wblock) (i : Z) : option Z :=
  match wb_plen b with PNone => Some (8 * al) | PSame p => Some p | PEach ps => zget ps i end.

Definition wf_block (al : Z) (b : wblock) : Prop :=
  1 <= wb_num b <= 255 /\ all_bytes (wb_head b) /\ zlen (wb_head b) < al /\
  match wb_tail b with
  | TNone => True
  | TZero n => 0 <= n
  | TFull t => all_bytes t /\ 1 <= zlen t < al
  end /\
  zlen (wb_head b) + zlen (tail_bytes b) <= al /\
  Forall (fun m => all_bytes m /\ zlen m = al - zlen (wb_head b) - zlen (tail_bytes b)) (wb_mids b) /\
  match wb_plen b with
  | PNone => True
  | PSame p => is_u8 p
  | PEach ps => all_bytes ps /\ zlen ps = wb_num b
  end /\
  Forall (wf_tlv (wb_num b)) (wb_tlvs b) /\ zlen (flat_map enc_tlv (wb_tlvs b)) < 65536.

(** ** Messages, section 5.2 *)
Record wmsg := {
  wm_type : Z; wm_addrlen : Z; wm_orig : option bytes; wm_hoplimit : option Z; wm_hopcount : option Z;
  wm_seqno : option Z; wm_tlvs : list wtlv; wm_blocks : list wblock
}.
Definition msg_flags (m : wmsg) : Z :=
  has (wm_orig m) 0x80 + has (wm_hoplimit m) 0x40 + has (wm_hopcount m) 0x20 + has (wm_seqno m) 0x10.
Definition enc_msg_rest (m : wmsg) : bytes :=
  match wm_orig m with Some a => a | None => [] end ++ opt1 (wm_hoplimit m) ++ opt1 (wm_hopcount m)
  ++ match wm_seqno m with Some s => be16 s | None => [] end
  ++ enc_tlvs (wm_tlvs m) ++ flat_map enc_block (wm_blocks m).
Definition msg_size (m : wmsg) : Z := 4 + zlen (enc_msg_rest m).
Definition enc_msg (m : wmsg) : bytes :=
  [wm_type m; msg_flags m + (wm_addrlen m - 1)] ++ be16 (msg_size m) ++ enc_msg_rest m.
Definition wf_msg (m : wmsg) : Prop :=
  is_u8 (wm_type m) /\ 1 <= wm_addrlen m <= 16 /\
  (forall a, wm_orig m = Some a -> all_bytes a /\ zlen a = wm_addrlen m) /\
  (forall h, wm_hoplimit m = Some h -> is_u8 h) /\ (forall h, wm_hopcount m = Some h -> is_u8 h) /\
  (forall s, wm_seqno m = Some s -> is_u16 s) /\
  Forall (wf_tlv 0) (wm_tlvs m) /\ Forall (wf_block (wm_addrlen m)) (wm_blocks m) /\ msg_size m < 65536.

(** ** Packets, section 5.1 *)
Record wpkt := { wp_seqno : option Z; wp_tlvs : option (list wtlv); wp_msgs : list wmsg }.
Definition enc_pkt (p : wpkt) : bytes :=
  [has (wp_seqno p) 0x08 + has (wp_tlvs p) 0x04]
  ++ match wp_seqno p with Some s => be16 s | None => [] end
  ++ match wp_tlvs p with Some ws => enc_tlvs ws | None => [] end
  ++ flat_map enc_msg (wp_msgs p).
Definition wf_pkt (p : wpkt) : Prop :=
  (forall s, wp_seqno p = Some s -> is_u16 s) /\ (forall ws, wp_tlvs p = Some ws -> Forall (wf_tlv 0) ws) /\
  Forall wf_msg (wp_msgs p) /\ zlen (enc_pkt p) < 65536.

(** ** What consumers may be shown *)
(** [l] stands at offset [off] of the packet *)
Definition holds (pkt : bytes) (off : Z) (l : bytes) : Prop := exists a b, pkt = a ++ l ++ b /\ off = zlen a.

(** the TLV handed to a callback for address [i] is [w]: type, extension,
    and the visible value is the one of this address *)
Definition shows (pkt : bytes) (n i : Z) (w : wtlv) (t : tlv) : Prop :=
  t_type t = w_type w /\ t_ext t = match w_ext w with Some x => x | None => 0 end /\
  concerns n w i /\ t_length t = zlen (value_at n w i) /\
  (value_at n w i <> [] -> exists off, t_single t = Some off /\ holds pkt off (value_at n w i)).
Definition shows_one_of (pkt : bytes) (n i : Z) (ws : list wtlv) (t : tlv) : Prop :=
  exists w, In w ws /\ shows pkt n i w t.

Definition header_of (m : wmsg) (h : mhdr) : Prop :=
  mh_type h = wm_type m /\ mh_flags h = msg_flags m /\ mh_addr_len h = wm_addrlen m /\ mh_size h = msg_size m /\
  mh_hoplimit h = wm_hoplimit m /\ mh_hopcount h = wm_hopcount m /\ mh_seqno h = wm_seqno m /\
  match wm_orig m, mh_orig h with
  | Some a, Some na => exists r, from_binary_prefix a 0 255 = Some (r, na)
  | None, None => True
  | _, _ => False
  end.

(** the context of a callback, the number of addresses, the index, and the
    TLVs there are for it *)
Definition in_packet (p : wpkt) (x : ctx) (n i : Z) (ws : list wtlv) : Prop :=
  x_pktseq x = wp_seqno p /\ x_hdr x = None /\ n = 0 /\ i = 0 /\ ws = match wp_tlvs p with Some l => l | None => [] end.
Definition in_message (seq : option Z) (start : Z) (m : wmsg) (x : ctx) (n i : Z) (ws : list wtlv) : Prop :=
  x_pktseq x = seq /\ (exists h, x_hdr x = Some h /\ header_of m h) /\
  ((x_kind x = KMessage /\ n = 0 /\ i = 0 /\ ws = wm_tlvs m) \/
   (x_kind x = KAddress /\ exists before b after a p r,
      wm_blocks m = before ++ b :: after /\
      x_block x = Some (start + msg_size m - zlen (flat_map enc_block (b :: after))) /\
      n = wb_num b /\ i = x_index x /\ ws = wb_tlvs b /\
      address b i = Some a /\ prefix_length (wm_addrlen m) b i = Some p /\
      from_binary_prefix a 0 p = Some (r, x_addr x))).

(** [place x n i ws]: callbacks of context [x] are about these TLVs *)
Definition event_fits (pkt : bytes) (place : ctx -> Z -> Z -> list wtlv -> Prop) (e : event) : Prop :=
  match e with
  | EvStart _ x | EvEnd _ x _ => exists n i ws, place x n i ws
  | EvTlv _ x t => exists n i ws, place x n i ws /\ shows_one_of pkt n i ws t
  | EvBlock _ x _ views =>
      exists n i ws, place x n i ws /\ Forall (fun v => Forall (shows_one_of pkt n i ws) (fst v)) views
  | EvForward x _ _ => exists n i ws, place x n i ws
  end.
(** a message handed to the forwarder is the message of the packet *)
Definition forward_fits (pkt : bytes) (m : wmsg) (e : event) : Prop :=
  match e with EvForward _ start len => holds pkt start (enc_msg m) /\ len = zlen (enc_msg m) | _ => True end.

(** every callback of the packet is about the packet or one of its messages *)
Definition fits (p : wpkt) (e : event) : Prop :=
  event_fits (enc_pkt p) (in_packet p) e \/
  exists before m after, wp_msgs p = before ++ m :: after /\
    event_fits (enc_pkt p) (in_message (wp_seqno p) (zlen (enc_pkt p) - zlen (flat_map enc_msg (m :: after))) m) e /\
    forward_fits (enc_pkt p) m e.

(** consumer [c] was told about a place and its TLVs *)
Definition told (pkt : bytes) (tr : list event) (c : consumer) (place : ctx -> Prop) (n i : Z) (ws : list wtlv) : Prop :=
  (c_start c = true -> exists x, place x /\ In (EvStart (c_id c) x) tr) /\
  (c_tlv c = true -> forall w, In w ws -> concerns n w i ->
     exists x t, place x /\ shows pkt n i w t /\ In (EvTlv (c_id c) x t) tr).
(** ... about everything in the packet *)
Definition told_packet (p : wpkt) (tr : list event) (c : consumer) : Prop :=
  let ws := match wp_tlvs p with Some l => l | None => [] end in
  told (enc_pkt p) tr c (fun x => in_packet p x 0 0 ws) 0 0 ws.
Definition told_message (pkt : bytes) (seq : option Z) (start : Z) (m : wmsg) (tr : list event) (c : consumer) : Prop :=
  if c_addrblock c then
    forall before b after i, wm_blocks m = before ++ b :: after -> 0 <= i < wb_num b ->
      told pkt tr c (fun x => in_message seq start m x (wb_num b) i (wb_tlvs b) /\ x_kind x = KAddress /\ x_index x = i /\
                              x_block x = Some (start + msg_size m - zlen (flat_map enc_block (b :: after))))
           (wb_num b) i (wb_tlvs b)
  else told pkt tr c (fun x => in_message seq start m x 0 0 (wm_tlvs m) /\ x_kind x = KMessage) 0 0 (wm_tlvs m).
Definition told_all (p : wpkt) (pcons mcons : list consumer) (tr : list event) : Prop :=
  (forall c, In c pcons -> told_packet p tr c) /\
  (forall before m after c, wp_msgs p = before ++ m :: after -> In c mcons ->
     c_default c = true \/ c_msgid c = wm_type m ->
     told_message (enc_pkt p) (wp_seqno p) (zlen (enc_pkt p) - zlen (flat_map enc_msg (m :: after))) m tr c).
