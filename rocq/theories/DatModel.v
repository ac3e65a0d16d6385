(** Model of the directional airtime metric: src/nhdp/ff_dat_metric/ff_dat_metric.c.

    Not modelled: what the plugin writes into the layer2 database under its own
    origin (it ignores such values when it reads them), the choice of the packets
    that are counted (multicast or not, known link), text forms.  Values of the layer2
    database of other origins are inputs. *)
From Verif Require Import Base CodecModel.

(** ff_dat_metric.h:53-70, ff_dat_metric.c:69-72 *)
Definition SUCCESS_RANGE : Z := 8.
Definition SPEED_MIN : Z := 1024.
Definition SPEED_RANGE : Z := 2097152.
Definition COUNT : Z := 32.
(** ff_dat_metric.c:78-95 [struct ff_dat_if_config] (what can be configured);
    [g_exponent]: 0 linear, 1 quadratic, 2 cubic, 3 dynamic (204-223) *)
Record config := { g_ett : bool; g_exponent : Z; g_mic : bool }.
(** 102-111 [struct link_datff_bucket] *)
Record bucket := { b_recv : Z; b_total : Z; b_speed : Z }.
(** 116-146 [struct link_datff_data] without the timer *)
Record link := { k_data : bool; k_missed : Z; k_ptr : Z; k_seq : Z; k_rate : Z; k_interval : Z; k_neigh : Z; k_buckets : list bucket }.
(** of the layer2 database (values of other origins): speed of the link or -1; broadcast
    loss and link quality (scaled by 1000) and throughput *)
Record l2 := { l_speed : Z; l_loss : option Z; l_rlq : option Z; l_thr : option Z }.

(** 458-490 [_cb_link_added] *)
Definition added (itime vtime : Z) : link :=
  {| k_data := false; k_missed := 0; k_ptr := 0; k_seq := 0; k_rate := 8000; k_interval := if 0 <? itime then itime else vtime; k_neigh := 0;
     k_buckets := repeat {| b_recv := 0; b_total := 1; b_speed := 0 |} 32 |}.
(** 496-512 [_cb_link_changed], 1175-1180 [_reset_missed_hello_timer] *)
Definition changed (itime vtime : Z) (k : link) : link :=
  {| k_data := k_data k; k_missed := 0; k_ptr := k_ptr k; k_seq := k_seq k; k_rate := k_rate k; k_interval := if 0 <? itime then itime else vtime; k_neigh := k_neigh k; k_buckets := k_buckets k |}.
(** 1038-1051 [_cb_hello_lost] *)
Definition hello_lost (k : link) : link :=
  if k_data k then {| k_data := true; k_missed := u32 (k_missed k + 1); k_ptr := k_ptr k; k_seq := k_seq k; k_rate := k_rate k; k_interval := k_interval k; k_neigh := k_neigh k; k_buckets := k_buckets k |} else k.
(** 1141-1169 [_cb_process_packet] from the link on; [None] is an access outside of
    the buckets *)
Definition packet (seq : Z) (k : link) : option link :=
  if negb (k_data k) then
    match zget (k_buckets k) 0 with
    | None => None
    | Some b =>
        match zset (k_buckets k) 0 {| b_recv := 1; b_total := 1; b_speed := b_speed b |} with
        | None => None
        | Some bs => Some {| k_data := true; k_missed := k_missed k; k_ptr := 0; k_seq := seq; k_rate := k_rate k; k_interval := k_interval k; k_neigh := k_neigh k; k_buckets := bs |}
        end
    end
  else
    let total := if k_seq k <=? seq then seq - k_seq k else s32 (u32 (u32 (seq + 65536) - k_seq k)) in
    match zget (k_buckets k) (k_ptr k) with
    | None => None
    | Some b =>
        match zset (k_buckets k) (k_ptr k) {| b_recv := u32 (b_recv b + 1); b_total := u32 (b_total b + total); b_speed := b_speed b |} with
        | None => None
        | Some bs => Some {| k_data := true; k_missed := 0; k_ptr := k_ptr k; k_seq := seq; k_rate := k_rate k; k_interval := k_interval k; k_neigh := k_neigh k; k_buckets := bs |}
        end
    end.

(** qsort *)
Fixpoint insert (x : Z) (l : list Z) : list Z := match l with [] => [x] | y :: l' => if x <=? y then x :: l else y :: insert x l' end.
Fixpoint sort (l : list Z) : list Z := match l with [] => [] | x :: l' => insert x (sort l') end.
(** 581-603 [_get_median_rx_linkspeed]: the array is one of int *)
Definition median (bs : list bucket) : option Z :=
  let a := map (fun b => s32 (b_speed b)) bs in
  let zeros := zlen (filter (fun x => x <=? 0) a) in
  let window := zlen a - zeros in
  if window =? 0 then Some (-1) else zget (sort a) (zeros + window / 2).
(** 646-670 [_scale_linkspeed] (C division and remainder) *)
Definition scale_speed (raw : Z) : Z :=
  let r := Z.quot raw SPEED_MIN in
  let r := if 0 <? Z.rem raw SPEED_MIN then r + 1 else r in
  if r <? 1 then 1 else if SPEED_RANGE <? r then SPEED_RANGE else r.
(** 672-693 [_get_bitrate_cost_factor] *)
Definition bitrate_cost (bs : list bucket) : option Z :=
  match median bs with
  | None => None
  | Some m => if m =? -1 then Some (-1) else
      let r := scale_speed m in
      if r <? 0 then Some (-1) else if SPEED_RANGE <? r then Some (1000 * SPEED_RANGE) else Some (Z.quot (1000 * SPEED_RANGE) r)
  end.
(** 1020-1032 [_calculate_dynamic_loss_exponent] *)
Definition dynamic_exponent (n : Z) : Z := if n <? 4 then 1 else if n <? 9 then 2 else if n <? 15 then 3 else 4.
(** 761-777: the exponent *)
Definition exponent (g : config) (neigh : Z) : Z :=
  if g_exponent g =? 0 then 1 else if g_exponent g =? 1 then 2 else if g_exponent g =? 2 then 3 else if g_exponent g =? 3 then dynamic_exponent neigh else 1.
(** 779-783 *)
Fixpoint squares (n : nat) (s : Z) : Z := match n with O => s | S n' => squares n' (Z.quot (s64 (s * s)) 1000) end.
(** 704-804 [_get_lossrate_cost_factor]: the cost and the new last_packet_loss_rate *)
Definition loss_cost (g : config) (x : l2) (neigh rate received total : Z) : Z * Z :=
  let '(s, n) := if negb (total =? 0) && (total <? u32 (received * SUCCESS_RANGE)) then (1000 * received / total, 1) else (0, 0) in
  let '(s, n) := match l_loss x with Some v => (s + (1000 - v), n + 1) | None => (s, n) end in
  let '(s, n) := match l_rlq x with Some v => (s + v, n + 1) | None => (s, n) end in
  if n =? 0 then (1000 * SUCCESS_RANGE, rate) else
  let s := Z.quot s n in
  let s := squares (Z.to_nat (exponent g neigh - 1)) s in
  if s =? 0 then (1000 * SUCCESS_RANGE, rate) else
  let c := Z.quot 1000000 s in
  if (1000 <? c) && (c <? 1000 * SUCCESS_RANGE) && (rate - 100 <=? c) && (c <=? rate + 100) then (rate, rate) else (c, c).
(** 806-863 [_get_throughput_cost_factor] *)
Definition throughput_cost (g : config) (x : l2) (k : link) (received total : Z) : option (Z * Z) :=
  match bitrate_cost (k_buckets k) with
  | None => None
  | Some bc =>
      let '(lc, rate) := loss_cost g x (k_neigh k) (k_rate k) received total in
      let '(c, n) := if (0 <? bc) && (0 <? lc) then (Z.quot (s64 (bc * lc)) 1000, 1) else (0, 0) in
      let '(c, n) := match l_thr x with Some v => (c + Z.quot (1000 * SPEED_RANGE) (scale_speed v), n + 1) | None => (c, n) end in
      let '(c, n) := if (n =? 0) && (0 <? lc) then (s64 (SPEED_RANGE * lc), 1) else (c, n) in
      Some (if n =? 0 then 1000 * SPEED_RANGE * SUCCESS_RANGE else Z.quot c n, rate)
  end.
(** 865-874 [_get_mic_cost_factor]; [count] is what [_calculate_link_neighborhood]
    (995-1013) finds *)
Definition mic_cost (g : config) (count : Z) (neigh : Z) : Z * Z := if g_mic g && (1 <? neigh) then (count * 1000, count) else (1000, neigh).
(** 876-902 [_shape_metric] *)
Definition shape (m : Z) : Z :=
  if METRIC_MAX <? m then METRIC_MAX else if m <? METRIC_MIN then METRIC_MIN else
  match metric_encode (u32 m) with MetricOk b0 b1 => metric_decode b0 b1 | _ => METRIC_MAX end.
(** 961-969: the metric, the new loss rate and neighborhood *)
Definition metric (g : config) (x : l2) (count : Z) (k : link) (received total : Z) : option (Z * Z * Z) :=
  match throughput_cost g x k received total with
  | None => None
  | Some (tc, rate) => let '(mc, neigh) := mic_cost g count (k_neigh k) in Some (shape (u64 (tc * mc) / 1000000), rate, neigh)
  end.
(** 935-953: the counters of a sample *)
Definition sum_recv (bs : list bucket) : Z := fold_left (fun a b => u32 (a + b_recv b)) bs 0.
Definition sum_total (bs : list bucket) : Z := fold_left (fun a b => u32 (a + b_total b)) bs 0.
Definition effective (k : link) (refresh : Z) : Z :=
  let received := sum_recv (k_buckets k) in
  if 0 <? k_missed k then
    let missing := u32 (u64 (k_missed k * k_interval k) / refresh) in
    if COUNT <? missing then 0 else u32 (u64 (received * (COUNT - missing)) / COUNT)
  else received.
(** 908-988 [_cb_dat_sampling] for one link: the incoming metric that is set, if any.
    [refresh] is the refresh interval of the interface (not 0) *)
Definition sample (g : config) (x : l2) (count refresh : Z) (k : link) : option (option Z * link) :=
  if negb (k_data k) then Some (None, k) else
  let total := sum_total (k_buckets k) in
  let received := effective k refresh in
  match zget (k_buckets k) (k_ptr k) with
  | None => None
  | Some b =>
    match zset (k_buckets k) (k_ptr k) {| b_recv := b_recv b; b_total := b_total b; b_speed := l_speed x |} with
    | None => None
    | Some bs =>
        let k1 := {| k_data := k_data k; k_missed := k_missed k; k_ptr := k_ptr k; k_seq := k_seq k; k_rate := k_rate k; k_interval := k_interval k; k_neigh := k_neigh k; k_buckets := bs |} in
        match metric g x count k1 received total with
        | None => None
        | Some (m, rate, neigh) =>
            let ptr := if COUNT <=? u16 (k_ptr k + 1) then 0 else u16 (k_ptr k + 1) in
            match zget bs ptr with
            | None => None
            | Some b' =>
              match zset bs ptr {| b_recv := 0; b_total := 0; b_speed := b_speed b' |} with
              | None => None
              | Some bs' => Some (Some m, {| k_data := k_data k; k_missed := k_missed k; k_ptr := ptr; k_seq := k_seq k; k_rate := rate; k_interval := k_interval k; k_neigh := neigh; k_buckets := bs' |})
              end
            end
        end
    end
  end.

Inductive op := Packet (seq : Z) | Lost | Changed (itime vtime : Z) | Sample (g : config) (x : l2) (count refresh : Z).
Definition step (o : op) (k : link) : option (option Z * link) :=
  match o with
  | Packet seq => match packet seq k with Some k' => Some (None, k') | None => None end
  | Lost => Some (None, hello_lost k)
  | Changed i v => Some (None, changed i v k)
  | Sample g x count refresh => sample g x count refresh k
  end.
Fixpoint run (os : list op) (k : link) : option (list Z * link) :=
  match os with
  | [] => Some ([], k)
  | o :: os' =>
      match step o k with
      | None => None
      | Some (m, k1) => match run os' k1 with None => None | Some (ms, k2) => Some (match m with Some v => v :: ms | None => ms end, k2) end
      end
  end.
