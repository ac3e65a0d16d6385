(** Model of the hysteresis of links: src/nhdp/hysteresis_olsrv1/hysteresis_olsrv1.c.

    Not modelled: the link status that is derived from it (C67-C72), the text form,
    the extension of the link class.  Time is a number of milliseconds. *)
From Verif Require Import Base.

(** hysteresis_olsrv1.c:68-77 [struct _config], 79-101 [struct link_hysteresis_data];
    [h_due]: when interval_timer fires *)
Record config := { c_accept : Z; c_reject : Z; c_scaling : Z }.
Record hyst := { h_quality : Z; h_pending : bool; h_lost : bool; h_itime : Z; h_due : option Z }.
(** 121-126 (bounds of the entries) and 384-400 [_cb_cfg_validate] *)
Definition config_ok (c : config) : bool :=
  (0 <=? c_accept c) && (c_accept c <=? 1000) && (0 <=? c_reject c) && (c_reject c <=? 1000) && (1 <=? c_scaling c) && (c_scaling c <=? 1000) && negb (c_accept c <=? c_reject c).
(** 255-265 [_cb_link_added] *)
Definition added : hyst := {| h_quality := 0; h_pending := true; h_lost := false; h_itime := 0; h_due := None |}.

(** 227-249 [_update_hysteresis]: int32 arithmetic; C division *)
Definition update (c : config) (lost : bool) (h : hyst) : hyst :=
  let q := s32 (h_quality h * s32 (1000 - c_scaling c)) in
  let q := Z.quot (s32 (q + 999)) 1000 in
  let q := if lost then q else s32 (q + c_scaling c) in
  let h := {| h_quality := q; h_pending := h_pending h; h_lost := h_lost h; h_itime := h_itime h; h_due := h_due h |} in
  if negb (h_pending h) && negb (h_lost h) then
    if q <? c_reject c then {| h_quality := q; h_pending := h_pending h; h_lost := true; h_itime := h_itime h; h_due := h_due h |} else h
  else
    if c_accept c <? q then {| h_quality := q; h_pending := false; h_lost := false; h_itime := h_itime h; h_due := h_due h |} else h.
(** oonf_timer_set: an interval of 0 stops the timer (oonf_timer.c, C13) *)
Definition timer_set (now i : Z) : option Z := if i =? 0 then None else Some (now + i).
(** 285-302 [_cb_update_hysteresis] *)
Definition hello (c : config) (now itime vtime : Z) (h : hyst) : hyst :=
  let h := update c false h in
  let i := if itime =? 0 then vtime else itime in
  {| h_quality := h_quality h; h_pending := h_pending h; h_lost := h_lost h; h_itime := i; h_due := timer_set now (u64 (i * 3) / 2) |}.
(** 353-364 [_cb_timer_hello_lost] *)
Definition timeout (c : config) (now : Z) (h : hyst) : hyst :=
  let h := update c true h in
  {| h_quality := h_quality h; h_pending := h_pending h; h_lost := h_lost h; h_itime := h_itime h; h_due := timer_set now (h_itime h) |}.

(** a HELLO arrives (with its interval and validity times), the clock reaches the
    time of the timer, the configuration changes (369-375) *)
Inductive event := Hello (now itime vtime : Z) | Timer (now : Z) | Config (c : config).
Definition step (e : event) (s : config * hyst) : config * hyst :=
  let '(c, h) := s in
  match e with
  | Hello now i v => (c, hello c now i v h)
  | Timer now => match h_due h with Some d => if d <=? now then (c, timeout c now h) else s | None => s end
  | Config c' => if config_ok c' then (c', h) else s
  end.
Definition run (es : list event) (s : config * hyst) : config * hyst := fold_left (fun s e => step e s) es s.
