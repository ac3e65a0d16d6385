(** C131-C133: the directional airtime metric. *)
From Coq Require Import Permutation.
From Verif Require Import Base BufLemmas CodecModel CodecSpec CodecProofs DatModel DatProofs.

(** ** C131: the metric *)
(** Whatever happens on a link: no bucket outside of the ring is touched, and every metric
    that is set is within the limits and can be transmitted without change. *)
Theorem C131_metrics_can_be_sent : forall itime vtime os,
  exists ms k, run os (added itime vtime) = Some (ms, k) /\
   forall m, In m ms -> METRIC_MIN <= m <= METRIC_MAX /\ exists code, 0 <= code < 4096 /\ m = metric_value code.
Proof.
  intros it vt os. destruct (run_sinv os _ _ _ (sinv_added it vt)) as (ms & k & E & _ & V). exists ms, k. split; [exact E|]. intros m X. rewrite Forall_forall in V. exact (V m X).
Qed.
Definition plain : config := {| g_ett := true; g_exponent := 0; g_mic := false |}.
Definition at_speed (v : Z) : l2 := {| l_speed := v; l_loss := None; l_rlq := None; l_thr := None |}.
Example C131_sent_ex : option_map fst (run [Packet 1; Packet 2; Sample plain (at_speed 54000000) 0 1000; Packet 3; Sample plain (at_speed 6000000) 0 1000] (added 2000 6000)) = Some [318; 318].
Proof. vm_compute. reflexivity. Qed.

Lemma is_median_perm m l l' : Permutation l l' -> is_median m l -> is_median m l'.
Proof.
  intros P (A & B & C & D). unfold is_median. cbv zeta. rewrite <- !(count_perm _ _ _ P). split; [exact A|]. split; [exact (Permutation_in _ P B)|]. split; assumption.
Qed.
(** the median of the positive ones of the last 32 speeds, if there is one *)
Definition median_of (v : option Z) (l : list Z) : Prop :=
  match v with None => forall y, In y l -> y <= 0 | Some m => is_median m l end.
(** With the linear cost function and no loss rates in the layer2 database: the metric
    of a link that was heard is the smallest transmittable value not below the product
    of the cost of the median speed of the last 32 samples and the cost of the losses
    in the last 32 intervals, within its limits; the throughput of the layer2 database is averaged with it. *)
Theorem C131_linear_metric_partial : forall itime vtime os lo hi g x count refresh,
  in_order os None -> numbers lo hi os -> lo <= hi -> hi - lo < 2 ^ 28 -> all_linear os -> linear g x -> heard (map fst os) = true ->
  exists ms k m k', run (map fst os) (added itime vtime) = Some (ms, k) /\ step (Sample g x count refresh) k = Some (Some m, k') /\
   exists r v lc rate rate', let h := history os [] in
    0 <= r <= received h /\ (k_missed k = 0 -> r = received h) /\
    median_of v (map s32 (firstn 32 (l_speed x :: sampled (map fst os) false [] ++ repeat 0 32))) /\
    1000 <= rate <= 8000 /\ loss_spec rate r (total h) lc rate' /\
    exists code, best_metric_code (Z.max METRIC_MIN (Z.min METRIC_MAX (cost v (l_thr x) lc / 1000))) code /\ m = metric_value code.
Proof.
  intros it vt os lo hi g x count refresh IO NB LH SP AL LN HD.
  destruct (run_inv os _ _ (inv_added it vt) IO) as (ms & k & E & HI). destruct (run_sinv (map fst os) _ _ _ (sinv_added it vt)) as (ms2 & k2 & E2 & HS & _). rewrite E in E2. injection E2 as <- <-.
  destruct (run_rate lo hi os LH SP _ _ _ _ (inv_added it vt) (sinv_added it vt) ltac:(constructor) ltac:(constructor) IO NB AL ltac:(cbn; lia)) as (ms3 & k3 & E3 & RR). rewrite E in E3. injection E3 as <- <-.
  rewrite HD in HS. cbn [orb] in HS. destruct (sample_sinv g x count refresh k _ HS) as (m & k' & k1 & rate & ES & _ & _ & O1 & R1 & EM & PM & _).
  exists ms, k, m, k'. split; [exact E|]. split; [exact ES|].
  pose proof (history_good os [] ltac:(constructor) IO) as HG. pose proof (history_bounds lo hi os [] ltac:(constructor) ltac:(constructor) IO NB) as HB.
  pose proof (received_total _ HG (v_chain _ _ HI)) as RT. pose proof (total_bound lo hi _ HB LH) as TB. rewrite (inv_total k _ HI), u32_id in EM by (unfold is_u32; lia).
  pose proof (effective_le k refresh) as EL. rewrite (inv_recv k _ HI), u32_id in EL by (unfold is_u32; lia).
  destruct (metric_lin g x count k1 (effective k refresh) (total (history os [])) O1 LN ltac:(lia) ltac:(lia) ltac:(rewrite R1; exact RR)) as (v & rate' & MD & LS & RR' & EM'). rewrite EM in EM'. injection EM' as -> ->.
  exists (effective k refresh), v, (loss_fun (k_rate k1) (effective k refresh) (total (history os []))), (k_rate k1), rate'. cbv zeta. split; [exact EL|]. split.
  { intros Z0. unfold effective. rewrite Z0. cbn. rewrite (inv_recv k _ HI), u32_id by (unfold is_u32; lia). reflexivity. }
  split.
  { assert (Permutation (map (fun b => s32 (b_speed b)) (k_buckets k1)) (map s32 (firstn 32 (speeds (l_speed x :: sampled (map fst os) false []))))) as PM' by (rewrite <- (map_map b_speed s32); apply Permutation_map, PM).
    unfold med in MD. destruct v as [v|]; cbn [median_of].
    - exact (is_median_perm _ _ _ PM' MD). - intros y Y. apply MD. exact (Permutation_in _ (Permutation_sym PM') Y). }
  split; [rewrite R1; exact RR|]. split; [exact LS|].
  apply shape_spec. apply Z.div_pos; [|lia]. pose proof (cost_range v (l_thr x) (loss_fun (k_rate k1) (effective k refresh) (total (history os []))) ltac:(apply loss_range; [rewrite R1; exact RR|lia])). lia.
Qed.
Definition stream : list (op * Z) := [(Packet 1, 1); (Packet 2, 2); (Sample plain (at_speed 54000000) 0 1000, 0); (Packet 4, 4); (Packet 5, 5)].
Example C131_linear_ex : in_order stream None /\ numbers 0 10 stream /\ all_linear stream /\ linear plain (at_speed 6000000) /\ heard (map fst stream) = true.
Proof.
  split; [cbn; repeat split; lia|]. split; [|split; [|split; [repeat split|reflexivity]]].
  - intros s n H. cbn in H. intuition; try discriminate; match goal with X : (_, _) = (_, _) |- _ => injection X as <- <- end; lia.
  - intros g x c r n H. cbn in H. intuition; try discriminate. match goal with X : (Sample _ _ _ _, _) = _ |- _ => injection X as <- <- end. repeat split.
Qed.

Lemma median_unique bs w v : med bs w -> is_median v (map (fun b => s32 (b_speed b)) bs) -> w = Some v.
Proof.
  intros MD MD'. unfold med in MD. destruct w as [w|]; [f_equal|].
  - destruct MD as (A1 & _ & A2 & A3), MD' as (B1 & _ & B2 & B3). set (l := map (fun b => s32 (b_speed b)) bs) in *. destruct (Z.lt_trichotomy w v) as [L|[L|L]]; [|exact L|]; exfalso.
    + assert (count (fun x => (0 <? x) && (x <=? w)) l <= count (fun x => (0 <? x) && (x <? v)) l); [|lia]. apply count_le. intros y Y. apply andb_true_iff in Y as [Y1 Y2]. rewrite Y1. cbn [andb]. apply Z.leb_le in Y2. apply Z.ltb_lt. lia.
    + assert (count (fun x => (0 <? x) && (x <=? v)) l <= count (fun x => (0 <? x) && (x <? w)) l); [|lia]. apply count_le. intros y Y. apply andb_true_iff in Y as [Y1 Y2]. rewrite Y1. cbn [andb]. apply Z.leb_le in Y2. apply Z.ltb_lt. lia.
  - destruct MD' as (A1 & A2 & _). specialize (MD v A2). lia.
Qed.
(** With it, a link on which more packets are received does not get a worse metric, *)
Theorem C131_more_received_is_not_worse : forall g x count k r r' t,
  ok k -> linear g x -> 1000 <= k_rate k <= 8000 -> 0 <= r <= r' -> r' <= t -> t < 2 ^ 29 ->
  exists m m' a b, metric g x count k r t = Some (m, a, 0) /\ metric g x count k r' t = Some (m', b, 0) /\ m' <= m.
Proof.
  intros g x count k r r' t O LN RR H1 H2 H3. destruct (metric_lin g x count k r t O LN ltac:(lia) H3 RR) as (v & a & MD & _ & _ & E). destruct (metric_lin g x count k r' t O LN ltac:(lia) H3 RR) as (v' & b & MD' & _ & _ & E').
  assert (v' = v) as ->.
  { destruct v as [v|]; [exact (median_unique _ _ _ MD' MD)|]. destruct v' as [v'|]; [|reflexivity]. symmetry. exact (median_unique _ _ _ MD MD'). }
  eexists. eexists. exists a, b. split; [exact E|]. split; [exact E'|]. apply shape_mono. pose proof (loss_range (k_rate k) r t RR ltac:(lia)). pose proof (loss_range (k_rate k) r' t RR ltac:(lia)).
  pose proof (cost_range v (l_thr x) _ H0) as C1. pose proof (cost_range v (l_thr x) _ H) as C2. split; [apply Z.div_pos; lia|]. apply Z.div_le_mono; [lia|]. apply cost_mono. split; [lia|]. apply loss_mono; lia.
Qed.
(** and one with a greater median speed neither. *)
Theorem C131_faster_is_not_worse : forall g x count k k' v v' r t,
  ok k -> ok k' -> linear g x -> 1000 <= k_rate k <= 8000 -> k_rate k' = k_rate k -> 0 <= r <= t -> t < 2 ^ 29 ->
  is_median v (map (fun b => s32 (b_speed b)) (k_buckets k)) -> is_median v' (map (fun b => s32 (b_speed b)) (k_buckets k')) -> v <= v' ->
  exists m m' a b, metric g x count k r t = Some (m, a, 0) /\ metric g x count k' r t = Some (m', b, 0) /\ m' <= m.
Proof.
  intros g x count k k' v v' r t O O' LN RR RE RT TB M M' L. destruct (metric_lin g x count k r t O LN RT TB RR) as (w & a & MD & _ & _ & E). destruct (metric_lin g x count k' r t O' LN RT TB ltac:(rewrite RE; exact RR)) as (w' & b & MD' & _ & _ & E').
  rewrite (median_unique _ _ _ MD M) in E. rewrite (median_unique _ _ _ MD' M') in E'. eexists. eexists. exists a, b. split; [exact E|]. split; [exact E'|]. rewrite RE. pose proof (loss_range (k_rate k) r t RR RT) as LR. apply shape_mono.
  pose proof (cost_range (Some v') (l_thr x) _ LR). split; [apply Z.div_pos; lia|]. apply Z.div_le_mono; [lia|]. apply cost_speed; [|lia]. destruct M as [M _]. lia.
Qed.
(** a link with the given speeds of its last samples *)
Definition with_speeds (v : Z) : link :=
  {| k_data := true; k_missed := 0; k_ptr := 3; k_seq := 9; k_rate := 8000; k_interval := 2000; k_neigh := 0; k_buckets := repeat {| b_recv := 3; b_total := 4; b_speed := v |} 32 |}.
Lemma with_speeds_ok v : ok (with_speeds v).
Proof. constructor; cbn [with_speeds k_buckets k_ptr k_neigh k_data]; [reflexivity|lia|reflexivity|discriminate]. Qed.
Example C131_worse_ex : option_map (fun p => fst (fst p)) (metric plain (at_speed 6000000) 0 (with_speeds 6000000) 96 128) = Some 478
  /\ option_map (fun p => fst (fst p)) (metric plain (at_speed 6000000) 0 (with_speeds 6000000) 48 128) = Some 956
  /\ option_map (fun p => fst (fst p)) (metric plain (at_speed 6000000) 0 (with_speeds 54000000) 96 128) = Some 53.
Proof. vm_compute. auto. Qed.
Example C131_faster_ex : is_median 6000000 (map (fun b => s32 (b_speed b)) (k_buckets (with_speeds 6000000))).
Proof. vm_compute. intuition discriminate. Qed.

(** Not with the quadratic cost function: of 128 packets 16 received ones cost 8, and 17
    received ones cost 58. *)
Definition quadratic : config := {| g_ett := true; g_exponent := 1; g_mic := false |}.
Definition cubic : config := {| g_ett := true; g_exponent := 2; g_mic := false |}.
Definition numbered (l : list Z) : list (op * Z) := map (fun n => (Packet n, n)) l.
Theorem C131_more_received_is_not_worse_quadratic_refuted : exists os os' k k' m m' a a',
  in_order os None /\ in_order os' None /\ received (history os []) < received (history os' []) /\ total (history os []) = total (history os' []) /\
  run (map fst os) (added 2000 6000) = Some ([], k) /\ run (map fst os') (added 2000 6000) = Some ([], k') /\
  step (Sample quadratic (at_speed 6000000) 0 1000) k = Some (Some m, a) /\ step (Sample quadratic (at_speed 6000000) 0 1000) k' = Some (Some m', a') /\ m < m'.
Proof.
  exists (numbered (zrange 1 15 ++ [97])), (numbered (zrange 1 16 ++ [97])). eexists. eexists. eexists. eexists. eexists. eexists.
  split; [vm_compute; repeat split; discriminate|]. split; [vm_compute; repeat split; discriminate|]. split; [vm_compute; reflexivity|]. split; [vm_compute; reflexivity|]. split; [vm_compute; reflexivity|]. split; [vm_compute; reflexivity|]. split; [vm_compute; reflexivity|]. split; [vm_compute; reflexivity|]. vm_compute. reflexivity.
Qed.
(** "Cubic" is the fourth power: with half of the packets received the metric is 16 and not 8
    times that without losses. *)
Theorem C131_cubic_refuted : exists k m m' a b, ok k /\ metric cubic (at_speed 6000000) 0 k 128 128 = Some (m, a, 0) /\ metric cubic (at_speed 6000000) 0 k 64 128 = Some (m', b, 0) /\ 15 * m < m'.
Proof.
  exists (with_speeds 6000000). eexists. eexists. eexists. eexists. split; [apply with_speeds_ok|]. split; [vm_compute; reflexivity|]. split; [vm_compute; reflexivity|]. vm_compute. reflexivity.
Qed.
(** The option to leave out the speed has no effect, *)
Definition no_airtime (g : config) : config := {| g_ett := false; g_exponent := g_exponent g; g_mic := g_mic g |}.
Definition switch (f : config -> config) (c : Z -> Z) (o : op) : op := match o with Sample g x count refresh => Sample (f g) x (c count) refresh | _ => o end.
Theorem C131_airtime_option_ignored : forall os k, run (map (switch no_airtime (fun c => c)) os) k = run os k.
Proof.
  induction os as [|o os IH]; intros k; cbn [map run]; [reflexivity|]. replace (step (switch no_airtime (fun c => c) o) k) with (step o k) by (destruct o; reflexivity). destruct (step o k) as [[m k']|]; [|reflexivity]. rewrite IH. reflexivity.
Qed.
Theorem C131_airtime_option_refuted : exists k k' m m' a b, ok k /\ ok k' /\ metric (no_airtime plain) (at_speed 6000000) 0 k 128 128 = Some (m, a, 0) /\ metric (no_airtime plain) (at_speed 6000000) 0 k' 128 128 = Some (m', b, 0) /\ m' < m.
Proof.
  exists (with_speeds 6000000), (with_speeds 54000000). eexists. eexists. eexists. eexists. split; [apply with_speeds_ok|]. split; [apply with_speeds_ok|]. split; [vm_compute; reflexivity|]. split; [vm_compute; reflexivity|]. vm_compute. reflexivity.
Qed.
(** and neither have the penalty for large neighborhoods and the dynamic exponent: the size
    of the neighborhood is never found out. *)
Definition small_world (g : config) : config := {| g_ett := g_ett g; g_exponent := if g_exponent g =? 3 then 0 else g_exponent g; g_mic := false |}.
Theorem C131_neighborhood_ignored : forall os itime vtime, run (map (switch small_world (fun _ => 0)) os) (added itime vtime) = run os (added itime vtime).
Proof.
  intros os it vt. pose proof (sinv_added it vt) as H. revert H. generalize (added it vt), false, (@nil Z). induction os as [|o os IH]; intros k data acc H; cbn [map run]; [reflexivity|].
  assert (step (switch small_world (fun _ => 0) o) k = step o k) as ->.
  { destruct o as [s | | i v | g x count refresh]; try reflexivity. cbn [switch step]. pose proof (o_neigh k (s_ok _ _ _ H)) as N. unfold sample. destruct (k_data k); [|reflexivity]. cbn [negb]. destruct (zget _ _); [|reflexivity]. destruct (zset _ _ _); [|reflexivity].
    match goal with |- match ?A with _ => _ end = match ?B with _ => _ end => assert (A = B) as -> end; [|reflexivity].
    unfold metric, throughput_cost, mic_cost, loss_cost. cbn [k_neigh k_rate k_buckets]. rewrite N. cbn [small_world g_mic andb]. change (1 <? 0) with false. rewrite andb_false_r.
    assert (exponent (small_world g) 0 = exponent g 0) as ->; [|reflexivity]. unfold exponent, small_world. cbn [g_exponent]. destruct (Z.eqb_spec (g_exponent g) 3) as [->|N3]; [reflexivity|]. rewrite (proj2 (Z.eqb_neq _ _) N3). reflexivity. }
  destruct (run_sinv [o] k data acc H) as (ms & k1 & E & H1 & _). cbn [run] in E. destruct (step o k) as [[m k']|]; [|reflexivity]. injection E as _ <-. rewrite (IH k' _ _ H1). reflexivity.
Qed.
Example C131_options_ex : option_map fst (run [Packet 1; Packet 2; Sample {| g_ett := false; g_exponent := 3; g_mic := true |} (at_speed 54000000) 25 1000] (added 2000 6000)) = Some [318].
Proof. vm_compute. reflexivity. Qed.

(** ** C132: the packets that are counted *)
(** While the packets come in order and less than 65536 are lost in a row, a link counts the
    packets received in the last 32 intervals and all packets the other side numbered in
    that time, whatever number it began with and however often the numbers wrapped. *)
Theorem C132_counts_of_last_intervals_partial : forall itime vtime os, in_order os None ->
  exists ms k, run (map fst os) (added itime vtime) = Some (ms, k) /\
   sum_recv (k_buckets k) = u32 (received (history os [])) /\ sum_total (k_buckets k) = u32 (total (history os [])) /\
   0 <= received (history os []) <= total (history os []).
Proof.
  intros it vt os IO. destruct (run_inv os _ _ (inv_added it vt) IO) as (ms & k & E & HI). exists ms, k. split; [exact E|]. split; [exact (inv_recv k _ HI)|]. split; [exact (inv_total k _ HI)|].
  apply received_total; [exact (history_good os [] ltac:(constructor) IO)|exact (v_chain _ _ HI)].
Qed.
Definition wrapping : list (op * Z) := [(Packet 65534, 65534); (Packet 65535, 65535); (Sample plain (at_speed 54000000) 0 1000, 0); (Packet 2, 65538); (Lost, 0); (Packet 3, 65539)].
Example C132_counts_ex : in_order wrapping None /\ received (history wrapping []) = 4 /\ total (history wrapping []) = 36.
Proof. split; [cbn; repeat split; lia|]. vm_compute. auto. Qed.
(** Packets are taken off for HELLOs that are missing: each one its interval's share
    of 32 sampling intervals. *)
Theorem C132_missing_hellos : forall itime vtime os it vt n refresh, in_order os None -> heard (map fst os) = true ->
  received (history os []) < 2 ^ 32 -> let interval := if 0 <? it then it else vt in 0 <= interval -> 0 < refresh -> 0 < Z.of_nat n < 2 ^ 32 -> Z.of_nat n * interval < 2 ^ 64 -> Z.of_nat n * interval / refresh < 2 ^ 32 ->
  exists ms k, run (map fst os ++ Changed it vt :: repeat Lost n) (added itime vtime) = Some (ms, k) /\
   effective k refresh = received (history os []) * (32 - Z.min 32 (Z.of_nat n * interval / refresh)) / 32.
Proof.
  intros itime vtime os it vt n refresh IO HD RB interval I0 R0 NB NI NR.
  destruct (run_inv os _ _ (inv_added itime vtime) IO) as (ms & k & E & HI). destruct (run_sinv (map fst os) _ _ _ (sinv_added itime vtime)) as (ms2 & k2 & E2 & HS & _). rewrite E in E2. injection E2 as <- <-. rewrite HD in HS. cbn [orb] in HS.
  assert (forall os1 os2 k0 ms1 k1, run os1 k0 = Some (ms1, k1) -> run (os1 ++ os2) k0 = match run os2 k1 with Some (ms2, k2) => Some (ms1 ++ ms2, k2) | None => None end) as RA.
  { intros os1 os2. induction os1 as [|o os1 IH]; intros k0 ms1 k1 X; cbn [app run] in *; [injection X as <- <-; destruct (run os2 k0) as [[? ?]|]; reflexivity|]. destruct (step o k0) as [[m kk]|]; [|discriminate]. destruct (run os1 kk) as [[ms' kk']|] eqn:EE; [|discriminate]. injection X as <- <-. rewrite (IH kk ms' kk' EE). destruct (run os2 kk') as [[? ?]|]; [|reflexivity]. destruct m; reflexivity. }
  rewrite (RA _ _ _ _ _ E). cbn [run step].
  assert (forall j k0, inv k0 (history os []) -> k_data k0 = true -> 0 <= k_missed k0 -> k_missed k0 + Z.of_nat j < 2 ^ 32 -> exists k1, run (repeat Lost j) k0 = Some ([], k1) /\ inv k1 (history os []) /\ k_missed k1 = k_missed k0 + Z.of_nat j /\ k_interval k1 = k_interval k0) as RL.
  { induction j as [|j IH]; intros k0 H0 D0 M0 MB; cbn [repeat run step]; [exists k0; split; [reflexivity|]; split; [exact H0|]; split; [lia|reflexivity]|].
    pose proof (lost_inv k0 _ H0) as H1. assert (hello_lost k0 = {| k_data := true; k_missed := k_missed k0 + 1; k_ptr := k_ptr k0; k_seq := k_seq k0; k_rate := k_rate k0; k_interval := k_interval k0; k_neigh := k_neigh k0; k_buckets := k_buckets k0 |}) as HL by (unfold hello_lost; rewrite D0, u32_id by (unfold is_u32; lia); reflexivity).
    rewrite HL in *. destruct (IH _ H1 eq_refl) as (k1 & -> & H2 & M2 & I2); cbn [k_missed k_interval] in *; [lia|lia|]. exists k1. split; [reflexivity|]. split; [exact H2|]. split; [lia|exact I2]. }
  destruct (RL n (changed it vt k) (changed_inv it vt k _ HI) (s_data _ _ _ HS)) as (k1 & -> & H1 & M1 & I1); [cbn; lia|cbn [changed k_missed]; lia|]. exists (ms ++ []), k1. split; [reflexivity|].
  pose proof (received_total _ (history_good os [] ltac:(constructor) IO) (v_chain _ _ HI)) as RT. unfold effective. rewrite M1, I1, (inv_recv k1 _ H1), (u32_id (received _)) by (unfold is_u32; lia). cbn [changed k_missed k_interval]. fold interval. rewrite Z.add_0_l. destruct (Z.ltb_spec 0 (Z.of_nat n)); [|lia].
  rewrite (u64_id (Z.of_nat n * interval)) by (unfold is_u64; nia). assert (0 <= Z.of_nat n * interval / refresh) as Q0 by (apply Z.div_pos; nia). rewrite (u32_id (_ / _)) by (unfold is_u32; lia). set (q := Z.of_nat n * interval / refresh) in *. set (r := received (history os [])) in *. unfold COUNT. destruct (Z.ltb_spec 32 q).
  - replace (Z.min 32 q) with 32 by lia. replace (r * (32 - 32)) with 0 by lia. reflexivity.
  - replace (Z.min 32 q) with q by lia. rewrite u64_id by (unfold is_u64; nia). assert (0 <= r * (32 - q) / 32 <= r) by (split; [apply Z.div_pos; nia|apply Z.div_le_upper_bound; nia]). rewrite u32_id by (unfold is_u32; lia). reflexivity.
Qed.
Example C132_missing_ex : exists ms k, run (map fst stream ++ Changed 2000 6000 :: repeat Lost 8) (added 2000 6000) = Some (ms, k) /\ effective k 1000 = 2 /\ received (history stream []) = 4.
Proof. eexists. eexists. split; [vm_compute; reflexivity|]. split; vm_compute; reflexivity. Qed.

(** Not otherwise.  A packet that comes twice counts as received twice and makes the link better
    than one without losses: *)
Theorem C132_duplicates_refuted : exists os k m a, run os (added 2000 6000) = Some ([], k) /\ sum_total (k_buckets k) < sum_recv (k_buckets k) /\
  step (Sample plain (at_speed 6000000) 0 1000) k = Some (Some m, a) /\ forall t b, metric plain (at_speed 6000000) 0 (with_speeds 6000000) t t = Some b -> 0 < t < 2 ^ 29 -> 2 * m < fst (fst b).
Proof.
  exists (map (fun _ => Packet 7) (zrange 0 100)). eexists. eexists. eexists. split; [vm_compute; reflexivity|]. split; [vm_compute; reflexivity|]. split; [vm_compute; reflexivity|].
  intros t b E T. destruct (metric_lin plain (at_speed 6000000) 0 (with_speeds 6000000) t t (with_speeds_ok _) ltac:(repeat split) ltac:(lia) ltac:(lia) ltac:(cbn; lia)) as (v & a & MD & _ & _ & E'). rewrite E in E'. injection E' as ->. cbn [fst].
  assert (loss_fun 8000 t t = 1000) as LF. { unfold loss_fun. destruct (Z.ltb_spec t (8 * t)); [|lia]. unfold raw. rewrite Z.div_mul by lia. reflexivity. } change (k_rate (with_speeds 6000000)) with 8000. rewrite LF.
  assert (v = Some 6000000) as ->; [|vm_compute; reflexivity]. unfold med in MD. destruct v as [v|].
  - destruct MD as (_ & IN & _). vm_compute in IN. repeat (destruct IN as [IN|IN]; [rewrite <- IN; reflexivity|]). destruct IN.
  - specialize (MD 6000000 ltac:(left; reflexivity)). lia.
Qed.
(** two packets that change places count as a loss of 65536 packets: of two links that receive
    all four packets of every interval, the one with the swap at the end of the first 40 intervals gets eight times the metric
    for the next 31 samples. *)
Definition interval_of (l : list Z) : list op := map Packet l ++ [Sample plain (at_speed 6000000) 0 1000].
Definition steady (from : Z) (n : nat) : list op := flat_map (fun i => interval_of (zrange (from + 4 * i) 4)) (zrange 0 n).
Theorem C132_reordering_refuted : exists before one swapped rest ms ms' k k',
  before = steady 1 40 /\ one = interval_of [161; 162; 163; 164] /\ swapped = interval_of [161; 163; 162; 164] /\ rest = steady 165 30 /\
  run (before ++ one ++ rest) (added 2000 6000) = Some (ms, k) /\ run (before ++ swapped ++ rest) (added 2000 6000) = Some (ms', k') /\
  skipn 40 ms = repeat 358 31 /\ skipn 40 ms' = repeat 2864 31.
Proof.
  eexists. eexists. eexists. eexists. eexists. eexists. eexists. eexists. split; [reflexivity|]. split; [reflexivity|]. split; [reflexivity|]. split; [reflexivity|]. split; [vm_compute; reflexivity|]. split; [vm_compute; reflexivity|]. split; vm_compute; reflexivity.
Qed.

Lemma firstn_In_sub {A} n (l : list A) x : In x (firstn n l) -> In x l.
Proof. intros H. rewrite <- (firstn_skipn n l). apply in_or_app. left. exact H. Qed.
(** ** C133: the speed of a link *)
(** For speeds below 2^31 bit/s: the speed used is the median of the positive ones of the last 32
    samples since the first packet; without one the link counts as the slowest. *)
Theorem C133_median_speed_partial : forall itime vtime os g x count refresh,
  heard os = true -> (forall v, In v (l_speed x :: sampled os false []) -> - 2 ^ 31 <= v < 2 ^ 31) ->
  exists ms k m k' k1 rate, run os (added itime vtime) = Some (ms, k) /\ step (Sample g x count refresh) k = Some (Some m, k') /\
   metric g x count k1 (effective k refresh) (sum_total (k_buckets k)) = Some (m, rate, 0) /\
   let last := firstn 32 (l_speed x :: sampled os false [] ++ repeat 0 32) in
   ((forall v, In v last -> v <= 0) /\ bitrate_cost (k_buckets k1) = Some (-1)) \/
   (exists v, is_median v last /\ bitrate_cost (k_buckets k1) = Some (1000 * SPEED_RANGE / Z.min SPEED_RANGE ((v + 1023) / 1024))).
Proof.
  intros it vt os g x count refresh HD SB. destruct (run_sinv os _ _ _ (sinv_added it vt)) as (ms & k & E & HS & _). rewrite HD in HS. cbn [orb] in HS. destruct (sample_sinv g x count refresh k _ HS) as (m & k' & k1 & rate & ES & _ & _ & O1 & R1 & EM & PM & _).
  exists ms, k, m, k', k1, rate. split; [exact E|]. split; [exact ES|]. split; [exact EM|]. cbv zeta. change (l_speed x :: sampled os false [] ++ repeat 0 32) with (speeds (l_speed x :: sampled os false [])). set (l := firstn 32 (speeds (l_speed x :: sampled os false []))) in *.
  assert (Permutation (map (fun b => s32 (b_speed b)) (k_buckets k1)) l) as P.
  { rewrite <- (map_map b_speed s32). rewrite PM. assert (map s32 l = l) as ->; [|reflexivity]. rewrite <- (map_id l) at 2. apply map_ext_in. intros v V. assert (- 2 ^ 31 <= v < 2 ^ 31) as B.
    { unfold l, speeds in V. apply (firstn_In_sub 32) in V. apply in_app_or in V as [V|V]; [exact (SB v V)|]. apply repeat_spec in V. lia. }
    unfold s32. assert (u32 v = if v <? 0 then v + 2 ^ 32 else v) as U. { unfold u32. symmetry. destruct (Z.ltb_spec v 0); [apply (Z.mod_unique v _ (-1)); lia|apply (Z.mod_unique v _ 0); lia]. }
    rewrite U. cbv zeta. destruct (Z.ltb_spec v 0); [destruct (Z.ltb_spec (v + 2 ^ 32) 2147483648); lia|destruct (Z.ltb_spec v 2147483648); lia]. }
  destruct (bitrate_cost_spec (k_buckets k1) (o_len k1 O1)) as (w & M1 & BC). destruct (median_spec (k_buckets k1) (o_len k1 O1)) as (w' & M2 & MS). rewrite M1 in M2. injection M2 as <-. destruct MS as [[-> MS]|MS].
  - left. split; [intros v V; apply MS; exact (Permutation_in _ (Permutation_sym P) V)|exact BC].
  - right. exists w. split; [exact (is_median_perm _ _ _ P MS)|]. rewrite BC. destruct MS as (W & _). destruct (Z.eqb_spec w (-1)); [lia|]. unfold speed_cost. rewrite scale_pos by exact W. reflexivity.
Qed.
Example C133_ex : heard (map fst stream) = true /\ sampled (map fst stream) false [] = [54000000] /\ is_median 54000000 (firstn 32 (6000000 :: [54000000] ++ repeat 0 32)).
Proof. split; [reflexivity|]. split; [reflexivity|]. vm_compute. intuition discriminate. Qed.
(** Not for faster links: at 2.5 Gbit/s a link gets the metric of one without a known speed,
    and at 4.3 Gbit/s that of one with 1 kbit/s. *)
Theorem C133_fast_links_refuted : exists slow fast m m' a b, 1000 * slow < fast /\
  metric plain (at_speed slow) 0 (with_speeds slow) 128 128 = Some (m, a, 0) /\ metric plain (at_speed fast) 0 (with_speeds fast) 128 128 = Some (m', b, 0) /\ 1000 * m < m'.
Proof. exists 2400000, 2500000000. eexists. eexists. eexists. eexists. split; [reflexivity|]. split; [vm_compute; reflexivity|]. split; [vm_compute; reflexivity|]. vm_compute. reflexivity. Qed.
Theorem C133_faster_links_refuted : exists slow fast m m' a b, 1000 * slow < fast /\
  metric plain (at_speed slow) 0 (with_speeds slow) 128 128 = Some (m, a, 0) /\ metric plain (at_speed fast) 0 (with_speeds fast) 128 128 = Some (m', b, 0) /\ 1000 * m < m'.
Proof. exists 2400000, (2 ^ 32 + 1000). eexists. eexists. eexists. eexists. split; [reflexivity|]. split; [vm_compute; reflexivity|]. split; [vm_compute; reflexivity|]. vm_compute. reflexivity. Qed.

Print Assumptions C131_metrics_can_be_sent.
Print Assumptions C131_linear_metric_partial.
Print Assumptions C131_more_received_is_not_worse.
Print Assumptions C131_faster_is_not_worse.
Print Assumptions C131_more_received_is_not_worse_quadratic_refuted.
Print Assumptions C131_cubic_refuted.
Print Assumptions C131_airtime_option_ignored.
Print Assumptions C131_airtime_option_refuted.
Print Assumptions C131_neighborhood_ignored.
Print Assumptions C132_counts_of_last_intervals_partial.
Print Assumptions C132_missing_hellos.
Print Assumptions C132_duplicates_refuted.
Print Assumptions C132_reordering_refuted.
Print Assumptions C133_median_speed_partial.
Print Assumptions C133_fast_links_refuted.
Print Assumptions C133_faster_links_refuted.
