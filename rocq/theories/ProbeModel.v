(** Model of neighbor probing: src/nhdp/neighbor_probing/neighbor_probing.c.

    The links of all NHDP interfaces are one list, in the order of the two loops
    (289-304); every link carries the layer-2 data of its interface.  A link has a number
    instead of a pointer; an address is a number.  The environment (NHDP, layer-2
    database) may change everything but the link extension (84-98).  The system sends
    what it is given. *)
From Verif Require Import Base WriterModel.

(** struct oonf_layer2_net as far as 243-259 reads it.  [n_flag]: the reported value of
    OONF_LAYER2_NET_MCS_BY_PROBING. *)
Record net := { n_flag : option bool; n_dlep : bool; n_wireless : bool }.
(** what the environment knows of a link; [e_tx]: the value of TX_FRAMES if it exists *)
Record lenv := { e_net : option net; e_sym : bool; e_rx : bool; e_tx : option Z; e_addr : option Z }.
(** struct _probing_link_data (84-98); [x_target]: destination of the target *)
Record ext := { x_check : Z; x_tx : Z; x_target : option Z }.
Record link := { k_id : Z; k_env : lenv; k_ext : ext }.

(** 243-259 [_check_if_type]; [dlep]: option probe_dlep *)
Definition check_if_type (dlep : bool) (n : net) : bool :=
  match n_flag n with
  | Some v => v
  | None => if n_dlep n then dlep else n_wireless n
  end.
(** 292-316, 323: the link is looked at, with this value of TX_FRAMES *)
Definition looked_at (dlep : bool) (e : lenv) : option Z :=
  match e_net e with
  | None => None
  | Some n => if check_if_type dlep n && e_sym e && e_rx e then e_tx e else None
  end.
Definition with_ext (k : link) (x : ext) : link := {| k_id := k_id k; k_env := k_env k; k_ext := x |}.

(** 318-341: the body of the inner loop; [best]: points and number of the best link *)
Definition visit (dlep : bool) (now : Z) (k : link) (best : option (Z * Z)) : link * option (Z * Z) :=
  match looked_at dlep (k_env k) with
  | None => (k, best)
  | Some tx =>
      let x := k_ext k in
      if negb (x_tx x =? tx) then (with_ext k {| x_check := now; x_tx := tx; x_target := x_target x |}, best)
      else
        let points := u64 (now - x_check x) in
        let best_points := match best with Some (p, _) => p | None => 0 end in
        (k, if best_points <? points then Some (points, k_id k) else best)
  end.
Fixpoint scan (dlep : bool) (now : Z) (l : list link) (best : option (Z * Z)) : list link * option (Z * Z) :=
  match l with
  | [] => ([], best)
  | k :: r => let '(k, best) := visit dlep now k best in let '(r, best) := scan dlep now r best in (k :: r, best)
  end.
(** 345-357: the best link; a target is made with the first probe and kept *)
Definition chosen (now : Z) (k : link) : link * option Z :=
  let x := k_ext k in
  let t := match x_target x with Some t => Some t | None => e_addr (k_env k) end in
  (with_ext k {| x_check := now; x_tx := x_tx x; x_target := t |}, t).
Fixpoint choose (now : Z) (i : Z) (l : list link) : list link * option Z :=
  match l with
  | [] => ([], None)
  | k :: r => if k_id k =? i then let '(k, t) := chosen now k in (k :: r, t) else let '(r, t) := choose now i r in (k :: r, t)
  end.
(** 265-358 [_cb_probe_link]: the probe, link and destination *)
Definition tick (dlep : bool) (now : Z) (l : list link) : list link * option (Z * Z) :=
  match scan dlep now l None with
  | (l, None) => (l, None)
  | (l, Some (_, i)) => match choose now i l with (l, Some t) => (l, Some (i, t)) | (l, None) => (l, None) end
  end.

(** ** Runs *)
Inductive op :=
| Tick                       (* the timer fires *)
| Wait (d : Z)
| Change (i : Z) (e : lenv)  (* the environment changes a link *)
| Add (i : Z) (e : lenv)     (* a new link; its extension is zero *)
| Remove (i : Z).            (* 228-236 *)
Record world := { w_now : Z; w_links : list link }.
Definition new_ext : ext := {| x_check := 0; x_tx := 0; x_target := None |}.
Definition step (dlep : bool) (o : op) (w : world) : world * option (Z * Z) :=
  match o with
  | Tick => let '(l, p) := tick dlep (w_now w) (w_links w) in ({| w_now := w_now w; w_links := l |}, p)
  | Wait d => ({| w_now := w_now w + Z.max 0 d; w_links := w_links w |}, None)
  | Change i e => ({| w_now := w_now w; w_links := map (fun k => if k_id k =? i then {| k_id := i; k_env := e; k_ext := k_ext k |} else k) (w_links w) |}, None)
  | Add i e => ({| w_now := w_now w; w_links := if existsb (fun k => k_id k =? i) (w_links w) then w_links w else w_links w ++ [{| k_id := i; k_env := e; k_ext := new_ext |}] |}, None)
  | Remove i => ({| w_now := w_now w; w_links := filter (fun k => negb (k_id k =? i)) (w_links w) |}, None)
  end.
Fixpoint run (dlep : bool) (os : list op) (w : world) : world * list (op * option (Z * Z)) :=
  match os with
  | [] => (w, [])
  | o :: r => let '(w, p) := step dlep o w in let '(w, t) := run dlep r w in (w, (o, p) :: t)
  end.
Definition init : world := {| w_now := 0; w_links := [] |}.

(** ** The message: 366-372 [_cb_addMessageTLVs], after the header of six bytes (360-364,
    rfc5444_msg_generator.c:708).  [max]: the space for a message, at most
    RFC5444_MAX_MESSAGE_SIZE = 1225 (rfc5444_writer.h:88, rfc5444_msg_generator.c:195-217);
    the result of the TLV writer is ignored. *)
Definition probe_message (buf : bytes) (max size : Z) : option twd :=
  match tlv_add (Twd buf 6 0 0 0 max) 128 0 (repeat 0 (Z.to_nat size)) with
  | Some (_, d) => Some d
  | None => None
  end.
