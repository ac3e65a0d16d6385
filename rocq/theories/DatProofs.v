(** Specification of and proofs about the directional airtime metric. *)
From Coq Require Import Permutation Sorted.
From Verif Require Import Base BufLemmas CodecModel CodecSpec CodecProofs DatModel.

(** ** What is expected of the counters *)
(** an interval between two samples: number of packets in it, the (unbounded) number of
    the last packet before it and of the last packet up to its end *)
Record interval := { i_count : Z; i_before : Z; i_last : Z }.
(** all intervals, the last one first; [n] is the number of a packet *)
Definition arrive (n : Z) (h : list interval) : list interval :=
  match h with
  | [] => [{| i_count := 1; i_before := n - 1; i_last := n |}]
  | i :: h' => {| i_count := i_count i + 1; i_before := i_before i; i_last := n |} :: h'
  end.
Definition next (h : list interval) : list interval :=
  match h with [] => [] | i :: h' => {| i_count := 0; i_before := i_last i; i_last := i_last i |} :: h end.
Fixpoint history (os : list (op * Z)) (h : list interval) : list interval :=
  match os with
  | [] => h
  | (Packet _, n) :: os' => history os' (arrive n h)
  | (Sample _ _ _ _, _) :: os' => history os' (next h)
  | _ :: os' => history os' h
  end.
(** packets come in order and less than 65536 are lost between two of them *)
Fixpoint in_order (os : list (op * Z)) (last : option Z) : Prop :=
  match os with
  | [] => True
  | (Packet s, n) :: os' => s = n mod 65536 /\ match last with None => True | Some l => l < n < l + 65536 end /\ in_order os' (Some n)
  | _ :: os' => in_order os' last
  end.
(** received packets and lost or received packets in the last 32 intervals; an interval
    before the first packet counts as one lost packet *)
Definition window (h : list interval) : list interval := firstn 32 h.
Definition received (h : list interval) : Z := fold_right (fun i a => i_count i + a) 0 (window h).
Definition total (h : list interval) : Z :=
  match window h with [] => 32 | i :: _ => i_last i - i_before (last (window h) i) + (32 - zlen (window h)) end.

(** ** Rings *)
Definition counts (b : bucket) : Z * Z := (b_recv b, b_total b).
Definition ages (p : Z) (l : list bucket) : list bucket := rev (firstn (S (Z.to_nat p)) l) ++ rev (skipn (S (Z.to_nat p)) l).
Lemma zget_split {A} (l : list A) p b : zget l p = Some b -> exists l1 l2, l = l1 ++ b :: l2 /\ zlen l1 = p.
Proof.
  intros H. pose proof (zget_bound _ _ _ H) as B. unfold zget in H. destruct (Z.ltb_spec p 0); [lia|]. apply nth_error_split in H as (l1 & l2 & E1 & E2). exists l1, l2. split; [exact E1|]. unfold zlen. lia.
Qed.
Lemma zget_mid {A} (l1 l2 : list A) b : zget (l1 ++ b :: l2) (zlen l1) = Some b.
Proof. rewrite zget_app, Z.ltb_irrefl, Z.sub_diag. reflexivity. Qed.
Lemma zset_mid {A} (l1 l2 : list A) b v : zset (l1 ++ b :: l2) (zlen l1) v = Some (l1 ++ v :: l2).
Proof.
  unfold zset. rewrite zlen_app, zlen_cons. pose proof (zlen_nonneg l1). pose proof (zlen_nonneg l2). destruct (Z.leb_spec 0 (zlen l1)); [|lia]. destruct (Z.ltb_spec (zlen l1) (zlen l1 + (zlen l2 + 1))); [|lia]. cbn [andb]. f_equal.
  unfold zlen. rewrite Nat2Z.id. clear. induction l1 as [|y l1 IH]; cbn; [reflexivity|]. now rewrite IH.
Qed.
Lemma ages_split (l1 l2 : list bucket) b : ages (zlen l1) (l1 ++ b :: l2) = b :: rev l1 ++ rev l2.
Proof.
  unfold ages. unfold zlen. rewrite Nat2Z.id. rewrite firstn_app, skipn_app. rewrite (firstn_all2 (n := S (length l1)) l1) by lia. rewrite (skipn_all2 (n := S (length l1)) l1) by lia.
  replace (S (length l1) - length l1)%nat with 1%nat by lia. cbn [firstn skipn app]. rewrite rev_app_distr. reflexivity.
Qed.
Lemma ages_perm p l : Permutation (ages p l) l.
Proof.
  unfold ages. rewrite <- (firstn_skipn (S (Z.to_nat p)) l) at 3. apply Permutation_app; symmetry; apply Permutation_rev.
Qed.
Lemma firstn_exact {A} n (l l' : list A) : length l = n -> firstn n (l ++ l') = l.
Proof. intros <-. rewrite firstn_app, Nat.sub_diag, firstn_all. cbn. apply app_nil_r. Qed.
(** the position moves on: the oldest one goes *)
Lemma ages_next l1 b l2 : zlen (l1 ++ b :: l2) = 32 -> let ptr := if COUNT <=? u16 (zlen l1 + 1) then 0 else u16 (zlen l1 + 1) in
  exists d bs, zget (l1 ++ b :: l2) ptr = Some d /\ (forall v, zset (l1 ++ b :: l2) ptr v = Some (bs v)) /\ forall v, zlen (bs v) = 32 /\ 0 <= ptr < 32 /\ ages ptr (bs v) = v :: firstn 31 (ages (zlen l1) (l1 ++ b :: l2)).
Proof.
  intros L ptr. rewrite zlen_app, zlen_cons in L. pose proof (zlen_nonneg l1). pose proof (zlen_nonneg l2). rewrite ages_split.
  assert (u16 (zlen l1 + 1) = zlen l1 + 1) as U by (apply u16_id; unfold is_u16; lia). subst ptr. rewrite U. unfold COUNT. destruct l2 as [|d l2].
  - change (zlen (@nil bucket)) with 0 in L. destruct (Z.leb_spec 32 (zlen l1 + 1)); [|lia]. destruct l1 as [|a l1]; [change (zlen (@nil bucket)) with 0 in L; lia|]. rewrite zlen_cons in L.
    exists a, (fun v => v :: l1 ++ [b]). split; [reflexivity|]. split; [intros v; exact (zset_mid [] (l1 ++ [b]) a v)|]. intros v. split; [rewrite zlen_cons, zlen_app, zlen_cons; change (zlen (@nil bucket)) with 0; lia|]. split; [lia|].
    transitivity (v :: rev (l1 ++ [b])); [exact (ages_split [] (l1 ++ [b]) v)|]. rewrite rev_app_distr. cbn [rev app]. rewrite app_nil_r.
    f_equal. change (b :: rev l1 ++ [a]) with ((b :: rev l1) ++ [a]). assert (length (b :: rev l1) = 31%nat) as LE by (cbn [length]; rewrite rev_length; unfold zlen in *; lia).
    symmetry. apply (firstn_exact _ _ _ LE).
  - rewrite zlen_cons in L. pose proof (zlen_nonneg l2). destruct (Z.leb_spec 32 (zlen l1 + 1)); [lia|].
    assert (l1 ++ b :: d :: l2 = (l1 ++ [b]) ++ d :: l2) as E by (rewrite <- app_assoc; reflexivity). assert (zlen l1 + 1 = zlen (l1 ++ [b])) as P by (rewrite zlen_app; reflexivity).
    exists d, (fun v => (l1 ++ [b]) ++ v :: l2). rewrite E, P. split; [apply zget_mid|]. split; [intros v; apply zset_mid|]. intros v. rewrite <- P. split; [rewrite zlen_app, <- P, zlen_cons; lia|]. split; [lia|]. rewrite P, ages_split. f_equal.
    rewrite rev_app_distr. cbn [rev app]. change (b :: rev l1 ++ rev l2 ++ [d]) with ((b :: rev l1) ++ rev l2 ++ [d]). rewrite app_assoc. assert (length ((b :: rev l1) ++ rev l2) = 31%nat) as LE by (rewrite app_length; cbn [length]; rewrite !rev_length; unfold zlen in *; lia).
    symmetry. apply (firstn_exact _ _ _ LE).
Qed.

(** ** No access outside of the buckets *)
Record ok (k : link) : Prop := { o_len : zlen (k_buckets k) = 32; o_ptr : 0 <= k_ptr k < 32; o_neigh : k_neigh k = 0; o_fresh : k_data k = false -> k_ptr k = 0 }.
Lemma ok_split k : ok k -> exists l1 b l2, k_buckets k = l1 ++ b :: l2 /\ zlen l1 = k_ptr k.
Proof.
  intros [A B _ _]. destruct (zget_Some (k_buckets k) (k_ptr k)) as (b & E); [lia|]. apply zget_split in E as (l1 & l2 & E1 & E2). eauto.
Qed.
Lemma packet_ok s k l1 b l2 : ok k -> k_buckets k = l1 ++ b :: l2 -> zlen l1 = k_ptr k ->
  exists k' b', packet s k = Some k' /\ ok k' /\ k_data k' = true /\ k_seq k' = s /\ k_ptr k' = k_ptr k /\ k_buckets k' = l1 ++ b' :: l2 /\
   (counts b' = if k_data k then (u32 (b_recv b + 1), u32 (b_total b + (if k_seq k <=? s then s - k_seq k else s32 (u32 (u32 (s + 65536) - k_seq k))))) else (1, 1)) /\ b_speed b' = b_speed b.
Proof.
  intros [A B N F] E P. unfold packet. destruct (k_data k) eqn:D; cbn [negb].
  - rewrite E, <- P, zget_mid, zset_mid. eexists. eexists. split; [reflexivity|]. split; [|split; [reflexivity|split; [reflexivity|split; [reflexivity|split; [reflexivity|split; reflexivity]]]]].
    constructor; cbn [k_buckets k_ptr k_neigh k_data]; [rewrite E in A; rewrite zlen_app, zlen_cons in *; exact A|rewrite P; exact B|exact N|discriminate].
  - specialize (F eq_refl). rewrite F in P. destruct l1; [|rewrite zlen_cons in P; pose proof (zlen_nonneg l1); lia]. rewrite E. cbn [app].
    pose proof (zset_mid [] l2 b {| b_recv := 1; b_total := 1; b_speed := b_speed b |}) as ZS. cbn [app] in ZS. change (zlen (@nil bucket)) with 0 in ZS. change (zget (b :: l2) 0) with (Some b). cbv iota. rewrite ZS.
    eexists. eexists. split; [reflexivity|]. split; [|split; [reflexivity|split; [reflexivity|split; [cbn; lia|split; [reflexivity|split; reflexivity]]]]].
    constructor; cbn [k_buckets k_ptr k_neigh k_data]; [rewrite E in A; exact A|lia|exact N|discriminate].
Qed.

(** ** Sorting *)
Lemma insert_perm x l : Permutation (insert x l) (x :: l).
Proof. induction l as [|y l IH]; cbn; [reflexivity|]. destruct (x <=? y); [reflexivity|]. rewrite IH. apply perm_swap. Qed.
Lemma sort_perm l : Permutation (sort l) l.
Proof. induction l as [|x l IH]; cbn; [reflexivity|]. rewrite insert_perm, IH. reflexivity. Qed.
Lemma insert_sorted x l : StronglySorted Z.le l -> StronglySorted Z.le (insert x l).
Proof.
  induction 1 as [|y l H IH F]; cbn; [repeat constructor|]. destruct (Z.leb_spec x y).
  - constructor; [constructor; assumption|]. constructor; [lia|]. eapply Forall_impl; [|exact F]. intros; lia.
  - constructor; [exact IH|]. apply (Permutation_Forall (Permutation_sym (insert_perm x l))). constructor; [lia|exact F].
Qed.
Lemma sort_sorted l : StronglySorted Z.le (sort l).
Proof. induction l; cbn; [constructor|]. apply insert_sorted; assumption. Qed.
(** how many satisfy *)
Definition count (P : Z -> bool) (l : list Z) : Z := zlen (filter P l).
Lemma count_perm P l l' : Permutation l l' -> count P l = count P l'.
Proof.
  unfold count, zlen. intros H. induction H; cbn; [reflexivity| | |congruence].
  - destruct (P x); cbn [length]; lia. - destruct (P x), (P y); cbn [length]; lia.
Qed.
Lemma count_app P l l' : count P (l ++ l') = count P l + count P l'.
Proof. unfold count. rewrite filter_app, zlen_app. reflexivity. Qed.
Lemma count_all P l : Forall (fun x => P x = true) l -> count P l = zlen l.
Proof. unfold count. induction 1 as [|x l H _ IH]; cbn; [reflexivity|]. rewrite H, !zlen_cons. lia. Qed.
Lemma count_none P l : Forall (fun x => P x = false) l -> count P l = 0.
Proof. unfold count. induction 1 as [|x l H _ IH]; cbn; [reflexivity|]. rewrite H. exact IH. Qed.
Lemma count_range P l : 0 <= count P l <= zlen l.
Proof. unfold count. split; [apply zlen_nonneg|]. unfold zlen. induction l as [|x l IH]; cbn; [lia|]. destruct (P x); cbn [length]; lia. Qed.
Lemma count_le P Q l : (forall x, P x = true -> Q x = true) -> count P l <= count Q l.
Proof. unfold count, zlen. intros H. induction l as [|x l IH]; cbn; [lia|]. destruct (P x) eqn:E; [rewrite (H x E); cbn [length]; lia|]. destruct (Q x); cbn [length]; lia. Qed.
Lemma count_split P l : count P l + count (fun x => negb (P x)) l = zlen l.
Proof. unfold count, zlen. induction l as [|x l IH]; cbn; [lia|]. destruct (P x); cbn [negb length]; lia. Qed.
(** the element at a position of the sorted list *)
Lemma sorted_rank l i m : StronglySorted Z.le l -> zget l i = Some m -> count (fun x => x <? m) l <= i /\ i < count (fun x => x <=? m) l.
Proof.
  intros SL G. apply zget_split in G as (l1 & l2 & -> & <-).
  assert (Forall (fun x => x <= m) l1 /\ Forall (fun x => m <= x) l2) as [F1 F2].
  { clear - SL. induction l1 as [|y l1 IH]; cbn [app] in SL; inversion SL as [|? ? S1 F]; subst.
    - split; [constructor|exact F]. - destruct (IH S1) as [A B]. split; [|exact B]. constructor; [|exact A]. apply Forall_app in F as [_ F]. inversion F; assumption. }
  rewrite !count_app. change (m :: l2) with ([m] ++ l2). rewrite !count_app. split.
  - pose proof (count_range (fun x => x <? m) l1). assert (count (fun x => x <? m) [m] = 0) as -> by (unfold count; cbn; rewrite Z.ltb_irrefl; reflexivity).
    rewrite (count_none _ l2); [lia|]. eapply Forall_impl; [|exact F2]. cbv beta. intros x X. apply Z.ltb_ge. exact X.
  - rewrite (count_all _ l1); [|eapply Forall_impl; [|exact F1]; cbv beta; intros x X; apply Z.leb_le; exact X]. assert (count (fun x => x <=? m) [m] = 1) as -> by (unfold count; cbn; rewrite Z.leb_refl; reflexivity).
    pose proof (count_range (fun x => x <=? m) l2). lia.
Qed.

(** ** The median *)
(** [m] is a median of the positive values: not more than half of them are smaller, and more
    than half are not greater *)
Definition is_median (m : Z) (l : list Z) : Prop :=
  let n := count (fun x => 0 <? x) l in
  0 < m /\ In m l /\ count (fun x => (0 <? x) && (x <? m)) l <= n / 2 /\ n / 2 < count (fun x => (0 <? x) && (x <=? m)) l.
Lemma count_and P Q l : (forall x, P x = false -> Q x = true) -> count (fun x => P x && Q x) l = count Q l - count (fun x => negb (P x)) l.
Proof.
  intros H. unfold count, zlen. induction l as [|x l IH]; cbn [filter]; [reflexivity|]. destruct (P x) eqn:E; cbn [andb negb].
  - destruct (Q x); cbn [length]; lia. - rewrite (H x E). cbn [length]. lia.
Qed.
Lemma median_spec bs : zlen bs = 32 -> exists m, median bs = Some m /\
  let a := map (fun b => s32 (b_speed b)) bs in
  (m = -1 /\ (forall x, In x a -> x <= 0)) \/ is_median m a.
Proof.
  intros L. unfold median. set (a := map (fun b => s32 (b_speed b)) bs). cbv zeta. fold (count (fun x => x <=? 0) a). set (z := count (fun x => x <=? 0) a).
  assert (zlen a = 32) as LA by (unfold a, zlen in *; rewrite map_length; exact L). pose proof (count_range (fun x => x <=? 0) a) as R. fold z in R. rewrite LA in R.
  assert (count (fun x => 0 <? x) a = 32 - z) as CP.
  { pose proof (count_split (fun x => x <=? 0) a) as X. cbv beta in X. fold z in X. assert (count (fun x => negb (x <=? 0)) a = count (fun x => 0 <? x) a) as Y; [|lia]. unfold count. f_equal. apply filter_ext. intros x. destruct (Z.leb_spec x 0), (Z.ltb_spec 0 x); cbn; lia || reflexivity. }
  rewrite LA. destruct (Z.eqb_spec (32 - z) 0) as [E|E].
  { exists (-1). split; [reflexivity|]. left. split; [reflexivity|]. intros x X. destruct (Z_le_gt_dec x 0) as [|G]; [assumption|]. exfalso. assert (In x (filter (fun x => 0 <? x) a)) as IN by (apply filter_In; split; [exact X|apply Z.ltb_lt; lia]).
    unfold count in CP. destruct (filter (fun x => 0 <? x) a); [destruct IN|]. rewrite zlen_cons in CP. pose proof (zlen_nonneg l). lia. }
  assert (0 <= (32 - z) / 2 /\ (32 - z) / 2 < 32 - z) as HD by (split; [apply Z.div_pos; lia|apply Z.div_lt; lia]).
  assert (zlen (sort a) = 32) as LS by (rewrite <- LA; unfold zlen; f_equal; apply Permutation_length, sort_perm).
  destruct (zget_Some (sort a) (z + (32 - z) / 2)) as (m & G); [lia|]. exists m. split; [exact G|]. right.
  destruct (sorted_rank _ _ _ (sort_sorted a) G) as [A B]. rewrite !(count_perm _ _ _ (sort_perm a)) in *.
  assert (0 < m) as MP. { destruct (Z_lt_le_dec 0 m) as [|X]; [assumption|]. exfalso. assert (count (fun x => x <=? m) a <= z); [|lia]. apply count_le. intros x Y. apply Z.leb_le in Y. apply Z.leb_le. lia. }
  assert (count (fun x => negb (0 <? x)) a = z) as CN by (unfold z, count; f_equal; apply filter_ext; intros x; destruct (Z.leb_spec x 0), (Z.ltb_spec 0 x); cbn; lia || reflexivity).
  unfold is_median. cbv zeta. rewrite CP. split; [exact MP|]. split; [|split].
  - apply (Permutation_in _ (sort_perm a)). unfold zget in G. destruct (_ <? 0); [discriminate|]. eapply nth_error_In, G.
  - rewrite (count_and (fun x => 0 <? x) (fun x => x <? m)), CN by (intros x X; apply Z.ltb_ge in X; apply Z.ltb_lt; lia). lia.
  - rewrite (count_and (fun x => 0 <? x) (fun x => x <=? m)), CN by (intros x X; apply Z.ltb_ge in X; apply Z.leb_le; lia). lia.
Qed.
Lemma s32_bounds x : - 2 ^ 31 <= s32 x < 2 ^ 31.
Proof. unfold s32. pose proof (u32_range x) as [A B]. cbv zeta. destruct (Z.ltb_spec (u32 x) 2147483648); lia. Qed.
(** the cost of a speed *)
Definition speed_cost (v : Z) : Z := 1000 * SPEED_RANGE / scale_speed v.
Lemma scale_pos v : 0 < v -> scale_speed v = Z.min SPEED_RANGE ((v + 1023) / 1024).
Proof.
  intros V. unfold scale_speed, SPEED_MIN, SPEED_RANGE. rewrite Z.quot_div_nonneg, Z.rem_mod_nonneg by lia. pose proof (Z.div_mod v 1024 ltac:(lia)) as E. pose proof (Z.mod_pos_bound v 1024 ltac:(lia)) as B. pose proof (Z.div_pos v 1024 ltac:(lia) ltac:(lia)).
  assert ((v + 1023) / 1024 = if 0 <? v mod 1024 then v / 1024 + 1 else v / 1024) as ->.
  { destruct (Z.ltb_spec 0 (v mod 1024)); symmetry; [apply (Z.div_unique (v + 1023) 1024 _ (v mod 1024 - 1)); lia|apply (Z.div_unique (v + 1023) 1024 _ 1023); lia]. }
  cbv zeta. set (r := if 0 <? v mod 1024 then v / 1024 + 1 else v / 1024). assert (1 <= r) by (unfold r; destruct (Z.ltb_spec 0 (v mod 1024)); lia).
  destruct (Z.ltb_spec r 1); [lia|]. destruct (Z.ltb_spec 2097152 r); lia.
Qed.
Lemma scale_range v : 1 <= scale_speed v <= SPEED_RANGE.
Proof. unfold scale_speed, SPEED_RANGE. cbv zeta. match goal with |- context [if ?x <? 1 then _ else _] => destruct (Z.ltb_spec x 1); [lia|]; destruct (Z.ltb_spec 2097152 x); lia end. Qed.
Lemma speed_cost_range v : 1000 <= speed_cost v <= 1000 * SPEED_RANGE.
Proof. unfold speed_cost. pose proof (scale_range v). unfold SPEED_RANGE in *. split; [apply Z.div_le_lower_bound; lia|apply Z.div_le_upper_bound; lia]. Qed.
Lemma speed_cost_mono v w : 0 < v <= w -> speed_cost w <= speed_cost v.
Proof.
  intros H. unfold speed_cost. pose proof (scale_range v). pose proof (scale_range w). assert (scale_speed v <= scale_speed w). { rewrite !scale_pos by lia. assert ((v + 1023) / 1024 <= (w + 1023) / 1024) by (apply Z.div_le_mono; lia). lia. }
  unfold SPEED_RANGE in *. apply Z.div_le_compat_l; lia.
Qed.
Lemma bitrate_cost_spec bs : zlen bs = 32 -> exists m, median bs = Some m /\ bitrate_cost bs = Some (if m =? -1 then -1 else speed_cost m).
Proof.
  intros L. destruct (median_spec bs L) as (m & E & S0). exists m. split; [exact E|]. unfold bitrate_cost. rewrite E. destruct (Z.eqb_spec m (-1)); [reflexivity|]. unfold speed_cost. pose proof (scale_range m). unfold SPEED_RANGE in *. cbv zeta. destruct (Z.ltb_spec (scale_speed m) 0); [lia|]. destruct (Z.ltb_spec 2097152 (scale_speed m)); [lia|]. rewrite Z.quot_div_nonneg by lia. reflexivity.
Qed.

(** ** The form of metrics *)
Lemma metric_value_le a b : 0 <= a <= b -> b < 4096 -> metric_value a <= metric_value b.
Proof.
  intros H B. revert B. pattern b. apply (Zlt_lower_bound_ind _ a); [|lia]. intros x IH X L. destruct (Z.eq_dec x a) as [->|N]; [lia|].
  assert (metric_value (x - 1) <= metric_value x). { replace x with (x - 1 + 1) at 2 by lia. assert (0 <= x - 1 < 4096) as Y by lia. pose proof (zsweep (fun c => metric_value c <? metric_value (c + 1)) 0 4096) as Z1. cbv beta in Z1. apply Z.lt_le_incl, Z.ltb_lt, Z1; [vm_compute; reflexivity|lia]. }
  specialize (IH (x - 1) ltac:(lia) ltac:(lia)). lia.
Qed.
(** bounded, and the smallest value that can be transmitted and is not smaller *)
Lemma shape_spec m : 0 <= m -> let v := Z.max METRIC_MIN (Z.min METRIC_MAX m) in exists code, best_metric_code v code /\ shape m = metric_value code.
Proof.
  intros H. unfold shape. change METRIC_MIN with 1. change METRIC_MAX with 16776960. destruct (Z.ltb_spec 16776960 m).
  - exists 4095. replace (Z.max 1 (Z.min 16776960 m)) with 16776960 by lia. destruct (metric_encode_ok 16776960 ltac:(vm_compute; split; discriminate)) as (b0 & b1 & E & B0 & B1 & C). vm_compute in E. injection E as <- <-. split; [exact C|reflexivity].
  - destruct (Z.ltb_spec m 1).
    + exists 0. replace (Z.max 1 (Z.min 16776960 m)) with 1 by lia. destruct (metric_encode_ok 1 ltac:(vm_compute; split; discriminate)) as (b0 & b1 & E & B0 & B1 & C). vm_compute in E. injection E as <- <-. split; [exact C|reflexivity].
    + replace (Z.max 1 (Z.min 16776960 m)) with m by lia. rewrite u32_id by (unfold is_u32; lia). destruct (metric_encode_ok m ltac:(change METRIC_MIN with 1; change METRIC_MAX with 16776960; lia)) as (b0 & b1 & E & B0 & B1 & C). rewrite E.
      exists (256 * b0 + b1). split; [exact C|]. rewrite metric_decode_spec by (unfold is_u8 in *; lia). rewrite Z.mod_small by lia. reflexivity.
Qed.
Lemma best_mono v w c d : v <= w -> best_metric_code v c -> best_metric_code w d -> metric_value c <= metric_value d.
Proof. intros H (A1 & A2 & A3) (B1 & B2 & B3). apply metric_value_le; [|lia]. split; [lia|]. apply A3; lia. Qed.
Lemma shape_mono m n : 0 <= m <= n -> shape m <= shape n.
Proof.
  intros H. destruct (shape_spec m ltac:(lia)) as (c & C & ->). destruct (shape_spec n ltac:(lia)) as (d & D & ->). eapply best_mono; [|exact C|exact D]. lia.
Qed.
Lemma shape_range m : 0 <= m -> METRIC_MIN <= shape m <= METRIC_MAX.
Proof.
  intros H. destruct (shape_spec m H) as (c & (C1 & C2 & C3) & ->). split; [lia|]. transitivity (metric_value 4095); [apply metric_value_le; lia|]. vm_compute. discriminate.
Qed.

(** ** Samples never fail *)
Lemma metric_some g x count k r t : ok k -> exists m rate, metric g x count k r t = Some (shape m, rate, 0) /\ 0 <= m.
Proof.
  intros [A B N F]. unfold metric, throughput_cost. destruct (bitrate_cost_spec (k_buckets k) A) as (md & _ & ->). destruct (loss_cost _ _ _ _ _ _) as [lc rate]. 
  assert (mic_cost g count (k_neigh k) = (1000, 0)) as MC by (unfold mic_cost; rewrite N; destruct (g_mic g); reflexivity).
  match goal with |- context [let '(c, n) := ?P in _] => destruct P as [c n] end. match goal with |- context [let '(c, n) := ?P in _] => destruct P as [c2 n2] end. match goal with |- context [let '(c, n) := ?P in _] => destruct P as [c3 n3] end.
  rewrite MC. eexists. eexists. split; [reflexivity|]. apply Z.div_pos; [apply u64_range|lia].
Qed.
Lemma sample_ok g x count refresh k l1 b l2 : ok k -> k_data k = true -> k_buckets k = l1 ++ b :: l2 -> zlen l1 = k_ptr k ->
  exists m k' k1 rate, sample g x count refresh k = Some (Some m, k') /\ ok k' /\ k_data k' = true /\ k_seq k' = k_seq k /\ k_rate k' = rate /\
   metric g x count k1 (effective k refresh) (sum_total (k_buckets k)) = Some (m, rate, 0) /\ k_rate k1 = k_rate k /\
   k_buckets k1 = l1 ++ {| b_recv := b_recv b; b_total := b_total b; b_speed := l_speed x |} :: l2 /\
   map counts (ages (k_ptr k') (k_buckets k')) = (0, 0) :: firstn 31 (map counts (ages (k_ptr k) (k_buckets k))) /\
   (METRIC_MIN <= m <= METRIC_MAX /\ exists code, 0 <= code < 4096 /\ m = metric_value code) /\
   ok k1 /\ exists d, map b_speed (ages (k_ptr k') (k_buckets k')) = d :: firstn 31 (map b_speed (ages (k_ptr k) (k_buckets k1))).
Proof.
  intros H D E P. pose proof H as [A B N F]. unfold sample. rewrite D. cbn [negb]. rewrite E, <- P, zget_mid, zset_mid.
  set (b1 := {| b_recv := b_recv b; b_total := b_total b; b_speed := l_speed x |}).
  set (k1 := {| k_data := true; k_missed := k_missed k; k_ptr := zlen l1; k_seq := k_seq k; k_rate := k_rate k; k_interval := k_interval k; k_neigh := k_neigh k; k_buckets := l1 ++ b1 :: l2 |}).
  assert (zlen (l1 ++ b1 :: l2) = 32) as L1 by (rewrite E in A; rewrite zlen_app, zlen_cons in *; exact A).
  assert (ok k1) as H1 by (constructor; cbn [k1 k_buckets k_ptr k_neigh k_data]; [exact L1|lia|exact N|discriminate]).
  rewrite <- E. destruct (metric_some g x count k1 (effective k refresh) (sum_total (k_buckets k)) H1) as (m & rate & EM & M0). rewrite EM.
  destruct (ages_next l1 b1 l2 L1) as (d & bs & G & ZS & AG). set (ptr := if COUNT <=? u16 (zlen l1 + 1) then 0 else u16 (zlen l1 + 1)) in *. rewrite G, ZS.
  eexists. eexists. exists k1, rate. split; [reflexivity|]. destruct (AG {| b_recv := 0; b_total := 0; b_speed := b_speed d |}) as (X1 & X2 & X3). split; [|split; [|split; [|split; [|split; [|split; [|split; [|split; [|split]]]]]]]].
  - constructor; cbn [k_buckets k_ptr k_neigh k_data]; [exact X1|exact X2|reflexivity|discriminate].
  - reflexivity. - reflexivity. - reflexivity.
  - exact EM. - reflexivity. - reflexivity.
  - cbn [k_buckets k_ptr]. rewrite X3. cbn [map]. f_equal. rewrite <- firstn_map. f_equal. rewrite E, !ages_split. cbn [map]. f_equal.
  - split; [apply shape_range, M0|]. destruct (shape_spec m M0) as (c & (C1 & _) & C2). exists c. split; [exact C1|exact C2].
  - split; [exact H1|]. exists (b_speed d). cbn [k_buckets k_ptr k1]. rewrite X3. cbn [map b_speed]. rewrite <- firstn_map. reflexivity.
Qed.

(** ** Sums *)
Definition zsum (l : list Z) : Z := fold_right Z.add 0 l.
Lemma zsum_perm l l' : Permutation l l' -> zsum l = zsum l'.
Proof. unfold zsum. induction 1; cbn; lia. Qed.
Lemma zsum_app l l' : zsum (l ++ l') = zsum l + zsum l'.
Proof. unfold zsum. induction l; cbn; lia. Qed.
Lemma u32_add_l a b : u32 (u32 a + b) = u32 (a + b).
Proof. unfold u32. apply Zplus_mod_idemp_l. Qed.
Lemma u32_add_r a b : u32 (a + u32 b) = u32 (a + b).
Proof. unfold u32. apply Zplus_mod_idemp_r. Qed.
Lemma fold_sum (f : bucket -> Z) bs : forall a, fold_left (fun a b => u32 (a + f b)) bs (u32 a) = u32 (a + zsum (map f bs)).
Proof.
  induction bs as [|b bs IH]; intros a; cbn [fold_left map]; [unfold zsum; cbn; f_equal; lia|]. rewrite u32_add_l, IH. f_equal. unfold zsum. cbn. lia.
Qed.
Lemma sum_recv_spec bs : sum_recv bs = u32 (zsum (map b_recv bs)).
Proof. exact (fold_sum b_recv bs 0). Qed.
Lemma sum_total_spec bs : sum_total bs = u32 (zsum (map b_total bs)).
Proof. exact (fold_sum b_total bs 0). Qed.
Lemma zsum_u32 (l : list Z) : u32 (zsum (map u32 l)) = u32 (zsum l).
Proof. induction l as [|x l IH]; [reflexivity|]. change (u32 (u32 x + zsum (map u32 l)) = u32 (x + zsum l)). rewrite u32_add_l, <- u32_add_r, IH, u32_add_r. reflexivity. Qed.

(** ** The ring holds the last intervals *)
Definition cnt (i : interval) : Z * Z := (u32 (i_count i), u32 (i_last i - i_before i)).
Fixpoint chain (h : list interval) : Prop := match h with i :: (j :: _) as h' => i_before i = i_last j /\ chain h' | _ => True end.
Record inv (k : link) (h : list interval) : Prop := {
  v_ok : ok k; v_data : k_data k = match h with [] => false | _ => true end;
  v_ring : map counts (ages (k_ptr k) (k_buckets k)) = firstn 32 (map cnt h ++ repeat (0, 1) 32);
  v_seq : match h with [] => True | i :: _ => k_seq k = i_last i mod 65536 end;
  v_chain : chain h }.
Definition last_of (h : list interval) : option Z := match h with [] => None | i :: _ => Some (i_last i) end.
Lemma added_ok i v : ok (added i v).
Proof. constructor; cbn [added k_buckets k_ptr k_neigh k_data]; [reflexivity|lia|reflexivity|reflexivity]. Qed.
Lemma inv_added i v : inv (added i v) [].
Proof. constructor; [apply added_ok|reflexivity|reflexivity|exact Logic.I|exact Logic.I]. Qed.
Lemma seq_diff l n : l < n < l + 65536 -> (if l mod 65536 <=? n mod 65536 then n mod 65536 - l mod 65536 else s32 (u32 (u32 (n mod 65536 + 65536) - l mod 65536))) = n - l.
Proof.
  intros H. pose proof (Z.mod_pos_bound l 65536 ltac:(lia)). pose proof (Z.mod_pos_bound n 65536 ltac:(lia)). pose proof (Z.div_mod l 65536 ltac:(lia)). pose proof (Z.div_mod n 65536 ltac:(lia)).
  assert (n / 65536 = l / 65536 \/ n / 65536 = l / 65536 + 1) as D by (clear - H; assert (l / 65536 <= n / 65536 <= l / 65536 + 1); [|lia]; split; [apply Z.div_le_mono; lia|]; replace (l / 65536 + 1) with ((l + 1 * 65536) / 65536) by (rewrite Z.div_add; lia); apply Z.div_le_mono; lia).
  destruct (Z.leb_spec (l mod 65536) (n mod 65536)); [lia|]. rewrite (u32_id (n mod 65536 + 65536)) by (unfold is_u32; lia). rewrite u32_id by (unfold is_u32; lia). unfold s32. rewrite u32_id by (unfold is_u32; lia). cbv zeta. destruct (Z.ltb_spec (n mod 65536 + 65536 - l mod 65536) 2147483648); lia.
Qed.
Lemma packet_inv k h n : inv k h -> match last_of h with None => True | Some l => l < n < l + 65536 end -> exists k', packet (n mod 65536) k = Some k' /\ inv k' (arrive n h).
Proof.
  intros [O D R SQ C] L. destruct (ok_split k O) as (l1 & b & l2 & E & P). destruct (packet_ok (n mod 65536) k l1 b l2 O E P) as (k' & b' & EP & O' & D' & S' & P' & E' & CB & _). exists k'. split; [exact EP|].
  rewrite E, <- P, ages_split in R. cbn [map] in R.
  assert (map counts (ages (k_ptr k') (k_buckets k')) = counts b' :: map counts (rev l1 ++ rev l2)) as R' by (rewrite P', E', <- P, ages_split; reflexivity).
  destruct h as [|i h]; cbn [arrive last_of] in *.
  - rewrite D in CB. constructor; [exact O'|rewrite D'; reflexivity| |rewrite S'; reflexivity|exact Logic.I]. rewrite R', CB. cbn [map cnt i_count i_last i_before]. cbn [map app] in *. unfold cnt; cbn [i_count i_last i_before]. replace (n - (n - 1)) with 1 by lia.
    change (u32 1) with 1. change (repeat (0, 1) 32) with ((0, 1) :: repeat (0, 1) 31) in R at 1. change (firstn 32 ((1, 1) :: repeat (0, 1) 32)) with ((1, 1) :: repeat (0, 1) 31). f_equal. apply (f_equal (@tl _)) in R. exact R.
  - rewrite D in CB. constructor; [exact O'|rewrite D'; reflexivity| |rewrite S'; reflexivity|destruct h; [exact Logic.I|exact C]]. rewrite R', CB. cbn [map app] in *. change (firstn 32 (cnt i :: map cnt h ++ repeat (0, 1) 32)) with (cnt i :: firstn 31 (map cnt h ++ repeat (0, 1) 32)) in R.
    change (firstn 32 (cnt {| i_count := i_count i + 1; i_before := i_before i; i_last := n |} :: map cnt h ++ repeat (0, 1) 32)) with (cnt {| i_count := i_count i + 1; i_before := i_before i; i_last := n |} :: firstn 31 (map cnt h ++ repeat (0, 1) 32)).
    injection R as R1 R2 R3. rewrite R3. f_equal. unfold cnt; cbn [i_count i_last i_before]. rewrite SQ, seq_diff by exact L. rewrite R1, R2, !u32_add_l. f_equal. f_equal. lia.
Qed.
Lemma changed_inv i v k h : inv k h -> inv (changed i v k) h.
Proof. intros [[A B N F] D R SQ C]. constructor; [constructor; assumption|exact D|exact R|exact SQ|exact C]. Qed.
Lemma lost_inv k h : inv k h -> inv (hello_lost k) h.
Proof.
  intros H. unfold hello_lost. destruct (k_data k) eqn:DD; [|exact H]. destruct H as [[A B N F] D R SQ C]. constructor; [constructor; cbn [k_buckets k_ptr k_neigh k_data]; try assumption; discriminate|rewrite DD in D; exact D|exact R|exact SQ|exact C].
Qed.
Lemma sample_inv g x count refresh k h : inv k h -> exists m k', sample g x count refresh k = Some (m, k') /\ inv k' (next h).
Proof.
  intros H. pose proof H as [O D R SQ C]. destruct h as [|i h]; cbn [next].
  - exists None, k. split; [|exact H]. unfold sample. rewrite D. reflexivity.
  - destruct (ok_split k O) as (l1 & b & l2 & E & P). destruct (sample_ok g x count refresh k l1 b l2 O D E P) as (m & k' & k1 & rate & ES & O' & D' & S' & _ & _ & _ & _ & R' & _). exists (Some m), k'. split; [exact ES|].
    constructor; [exact O'|exact D'| |rewrite S'; exact SQ|split; [reflexivity|exact C]]. rewrite R', R. rewrite firstn_firstn. set (n0 := {| i_count := 0; i_before := i_last i; i_last := i_last i |}). change (map cnt (n0 :: i :: h)) with (cnt n0 :: map cnt (i :: h)). assert (cnt n0 = (0, 0)) as -> by (unfold cnt, n0; cbn [i_count i_last i_before]; rewrite Z.sub_diag; reflexivity). reflexivity.
Qed.
Lemma run_inv os : forall k h, inv k h -> in_order os (last_of h) -> exists ms k', run (map fst os) k = Some (ms, k') /\ inv k' (history os h).
Proof.
  induction os as [|[o n] os IH]; intros k h H IO; cbn [map fst run history]; [exists [], k; split; [reflexivity|exact H]|].
  destruct o as [s | | it vt | g x count refresh]; cbn [in_order step] in *.
  - destruct IO as (-> & L & IO). destruct (packet_inv k h n H L) as (k' & -> & H'). destruct (IH k' (arrive n h) H') as (ms & k2 & -> & H2); [destruct h; exact IO|]. exists ms, k2. split; [reflexivity|exact H2].
  - destruct (IH _ _ (lost_inv k h H) IO) as (ms & k2 & -> & H2). exists ms, k2. split; [reflexivity|exact H2].
  - destruct (IH _ _ (changed_inv it vt k h H) IO) as (ms & k2 & -> & H2). exists ms, k2. split; [reflexivity|exact H2].
  - destruct (sample_inv g x count refresh k h H) as (m & k' & -> & H'). destruct (IH k' (next h) H') as (ms & k2 & -> & H2); [destruct h; exact IO|]. exists (match m with Some v => v :: ms | None => ms end), k2. split; [reflexivity|exact H2].
Qed.

(** *** The sums are those of the last intervals *)
Lemma firstn_pad {A} n (l : list A) x : firstn n (l ++ repeat x n) = firstn n l ++ repeat x (n - length l).
Proof.
  rewrite firstn_app. f_equal. assert (forall m a, (a <= m)%nat -> firstn a (repeat x m) = repeat x a) as X. { intros m. induction m; intros [|a] H; cbn; try reflexivity; [lia|]. f_equal. apply IHm. lia. } apply X. lia.
Qed.
Lemma zsum_repeat c n : zsum (repeat c n) = c * Z.of_nat n.
Proof. unfold zsum. induction n; cbn [repeat fold_right]; lia. Qed.
Lemma chain_firstn n h : chain h -> chain (firstn n h).
Proof. revert h. induction n as [|n IH]; intros h C; [exact Logic.I|]. destruct h as [|i [|j h]]; [exact Logic.I|destruct n; exact Logic.I|]. destruct C as [C1 C2]. specialize (IH _ C2). destruct n; [exact Logic.I|]. cbn [firstn] in *. split; assumption. Qed.
Lemma last_default {A} (h : list A) : forall y a b, last (y :: h) a = last (y :: h) b.
Proof. induction h as [|z h IH]; intros y a b; [reflexivity|]. exact (IH z a b). Qed.
Lemma chain_sum h : chain h -> forall i h', h = i :: h' -> zsum (map (fun i => i_last i - i_before i) h) = i_last i - i_before (last h i).
Proof.
  induction h as [|i [|j h] IH]; intros C i0 h' E; [discriminate|injection E as <- <-; cbn; lia|injection E as <- <-]. destruct C as [C1 C2]. specialize (IH C2 j h eq_refl). cbn [map] in *. unfold zsum in *. cbn [fold_right] in *. rewrite IH. rewrite C1. change (last (i :: j :: h) i) with (last (j :: h) i).
  rewrite (last_default h j i j). lia.
Qed.
Lemma inv_recv k h : inv k h -> sum_recv (k_buckets k) = u32 (received h).
Proof.
  intros [O D R SQ C]. rewrite sum_recv_spec, (zsum_perm (map b_recv (k_buckets k)) (map b_recv (ages (k_ptr k) (k_buckets k)))) by (apply Permutation_map, Permutation_sym, ages_perm).
  replace (map b_recv (ages (k_ptr k) (k_buckets k))) with (map fst (map counts (ages (k_ptr k) (k_buckets k)))) by (rewrite map_map; reflexivity). rewrite R, firstn_pad, map_app, zsum_app. rewrite firstn_map, map_map.
  change (fun x => fst (cnt x)) with (fun x => u32 (i_count x)). rewrite <- (map_map i_count u32). replace (zsum (map fst (repeat (0, 1) (32 - length (map cnt h))))) with 0; [|induction (32 - length (map cnt h))%nat; [reflexivity|exact IHn]].
  rewrite Z.add_0_r, zsum_u32. f_equal. unfold received, window. induction (firstn 32 h) as [|i l IH]; [reflexivity|]. unfold zsum in *. cbn. rewrite IH. reflexivity.
Qed.
Lemma inv_total k h : inv k h -> sum_total (k_buckets k) = u32 (total h).
Proof.
  intros [O D R SQ C]. rewrite sum_total_spec, (zsum_perm (map b_total (k_buckets k)) (map b_total (ages (k_ptr k) (k_buckets k)))) by (apply Permutation_map, Permutation_sym, ages_perm).
  replace (map b_total (ages (k_ptr k) (k_buckets k))) with (map snd (map counts (ages (k_ptr k) (k_buckets k)))) by (rewrite map_map; reflexivity). rewrite R, firstn_pad, map_app, zsum_app. rewrite firstn_map, map_map.
  change (fun x => snd (cnt x)) with (fun x => u32 (i_last x - i_before x)). rewrite <- (map_map (fun x => i_last x - i_before x) u32). replace (map snd (repeat (0, 1) (32 - length (map cnt h)))) with (repeat 1 (32 - length (map cnt h))); [|induction (32 - length (map cnt h))%nat as [|n IH]; [reflexivity|cbn; f_equal; exact IH]].
  rewrite <- u32_add_l, zsum_u32, u32_add_l, zsum_repeat. f_equal. unfold total, window. pose proof (chain_firstn 32 h C) as CF. 
  assert (Z.of_nat (32 - length (map cnt h)) = 32 - zlen (firstn 32 h)) as -> by (unfold zlen; rewrite map_length, firstn_length; lia).
  destruct (firstn 32 h) as [|i l] eqn:E; [reflexivity|]. rewrite (chain_sum _ CF i l eq_refl). lia.
Qed.

(** ** Received packets never exceed the expected ones while they come in order *)
Definition good (i : interval) : Prop := 0 <= i_count i <= i_last i - i_before i.
Lemma history_good os : forall h, Forall good h -> in_order os (last_of h) -> Forall good (history os h).
Proof.
  induction os as [|[o n] os IH]; intros h G IO; cbn [history]; [exact G|]. destruct o; cbn [in_order] in *.
  - destruct IO as (_ & L & IO). apply IH; [|destruct h; exact IO]. destruct h as [|i h]; cbn [arrive last_of] in *.
    + constructor; [unfold good; cbn; lia|constructor]. + inversion G; subst. unfold good in *. constructor; [cbn; lia|assumption].
  - apply IH; assumption. - apply IH; assumption.
  - apply IH; [|destruct h; exact IO]. destruct h as [|i h]; cbn [next]; [constructor|]. constructor; [unfold good; cbn; lia|exact G].
Qed.
Lemma history_chain os : forall h, chain h -> chain (history os h).
Proof.
  induction os as [|[o n] os IH]; intros h C; cbn [history]; [exact C|]. destruct o; apply IH; try exact C.
  - destruct h as [|i [|j h]]; cbn; auto; exact C. - destruct h as [|i h]; cbn; auto.
Qed.
Lemma received_total h : Forall good h -> chain h -> 0 <= received h <= total h.
Proof.
  intros G C. unfold total, received. assert (Forall good (window h)) as GW by (apply Forall_firstn; exact G). pose proof (chain_firstn 32 h C) as CW. fold (window h) in CW.
  assert (0 <= fold_right (fun i a => i_count i + a) 0 (window h) <= zsum (map (fun i => i_last i - i_before i) (window h))) as B. { clear - GW. induction GW as [|i l X _ IH]; [cbn; lia|]. unfold zsum, good in *. cbn [fold_right map]. lia. }
  assert (zlen (window h) <= 32) by (unfold zlen, window; rewrite firstn_length; lia). destruct (window h) as [|i l]; [cbn; lia|]. rewrite (chain_sum _ CW i l eq_refl) in B. lia.
Qed.
(** all numbers of packets are between two bounds *)
Definition numbers (lo hi : Z) (os : list (op * Z)) : Prop := forall s n, In (Packet s, n) os -> lo <= n <= hi.
Definition bounds (lo hi : Z) (i : interval) : Prop := lo - 1 <= i_before i /\ i_last i <= hi.
Lemma history_bounds lo hi os : forall h, Forall (bounds lo hi) h -> Forall good h -> in_order os (last_of h) -> numbers lo hi os -> Forall (bounds lo hi) (history os h).
Proof.
  unfold bounds. induction os as [|[o n] os IH]; intros h B G IO NB; cbn [history]; [exact B|]. assert (numbers lo hi os) as NB' by (intros s m X; apply (NB s m); right; exact X).
  pose proof (history_good [(o, n)] h G) as HG. cbn [history] in HG.
  destruct o; cbn [in_order] in *.
  - destruct IO as (X & L & IO). apply IH; [|apply HG; split; [exact X|split; [exact L|exact Logic.I]]|destruct h; exact IO|exact NB']. specialize (NB seq n (or_introl eq_refl)). destruct h as [|i h]; cbn [arrive].
    + constructor; [cbn; lia|constructor]. + inversion B; subst. constructor; [cbn; lia|assumption].
  - apply IH; assumption. - apply IH; assumption.
  - apply IH; [|apply HG; exact Logic.I|destruct h; exact IO|exact NB']. destruct h as [|i h]; cbn [next]; [constructor|]. inversion B; subst. inversion G as [|? ? GI]; subst. unfold good in GI. constructor; [cbn; lia|exact B].
Qed.
Lemma total_bound lo hi h : Forall (bounds lo hi) h -> lo <= hi -> total h <= hi - lo + 33.
Proof.
  intros B LH. unfold total. assert (Forall (bounds lo hi) (window h)) as BW by (apply Forall_firstn; exact B). pose proof (zlen_nonneg (window h)). destruct (window h) as [|i l] eqn:E; [lia|].
  assert (bounds lo hi (last (i :: l) i)) as [X _]. { rewrite Forall_forall in BW. apply BW. clear. revert i. induction l as [|j l IH]; intros i; [left; reflexivity|]. right. rewrite (last_default (j :: l) i i j). change (last (i :: j :: l) j) with (last (j :: l) j). apply IH. }
  inversion BW as [|? ? [_ Y]]; subst. rewrite zlen_cons in *. pose proof (zlen_nonneg l). lia.
Qed.

(** ** Packets counted after missing HELLOs *)
Lemma effective_le k refresh : 0 <= effective k refresh <= sum_recv (k_buckets k).
Proof.
  unfold effective. rewrite sum_recv_spec. pose proof (u32_range (zsum (map b_recv (k_buckets k)))) as U. set (r := u32 (zsum (map b_recv (k_buckets k)))) in *. unfold is_u32 in U. cbv zeta. destruct (0 <? k_missed k); [|lia]. pose proof (u32_range (u64 (k_missed k * k_interval k) / refresh)) as M. set (m := u32 (u64 (k_missed k * k_interval k) / refresh)) in *. unfold is_u32 in M.
  unfold COUNT. destruct (Z.ltb_spec 32 m); [lia|]. rewrite u64_id by (unfold is_u64; nia). assert (0 <= r * (32 - m) / 32 <= r) by (split; [apply Z.div_pos; nia|apply Z.div_le_upper_bound; nia]). rewrite u32_id by (unfold is_u32; lia). lia.
Qed.

(** ** Costs *)
(** [c], in thousandths, is about the expected number of transmissions: [t] packets for
    [r] received ones; the error is one thousandth and one thousandth of the share of
    received packets (less than 0.9 percent) *)
Definition near (r t c : Z) : Prop := 1000 * t < (c + 1) * r /\ c * (1000 * r - t) <= 1000000 * t.
(** the cost of losses: at most 8; a value that differs by not more than 0.1 from the
    last one is that one *)
Definition loss_spec (rate r t c rate' : Z) : Prop :=
  (8 * r <= t /\ c = 8000 /\ rate' = rate) \/
  (t < 8 * r /\ exists e, near r t e /\ 1000 <= e <= 8000 /\ rate' = c /\ (c = e \/ (c = rate /\ e - 100 <= rate <= e + 100))).
Definition raw (r t : Z) : Z := 1000000 / (1000 * r / t).
Definition smooth (rate e : Z) : Z := if (1000 <? e) && (e <? 8000) && (rate - 100 <=? e) && (e <=? rate + 100) then rate else e.
Definition loss_fun (rate r t : Z) : Z := if t <? 8 * r then smooth rate (raw r t) else 8000.
Lemma raw_range r t : 0 <= r <= t -> t < 8 * r -> 125 <= 1000 * r / t <= 1000 /\ 1000 <= raw r t <= 8000.
Proof.
  intros H L. assert (125 <= 1000 * r / t <= 1000) as B by (split; [apply Z.div_le_lower_bound; lia|apply Z.div_le_upper_bound; lia]). split; [exact B|]. unfold raw. split; [apply Z.div_le_lower_bound; lia|apply Z.div_le_upper_bound; lia].
Qed.
Lemma raw_near r t : 0 <= r <= t -> t < 8 * r -> near r t (raw r t).
Proof.
  intros H L. destruct (raw_range r t H L) as [B _]. unfold near, raw. set (s := 1000 * r / t) in *. pose proof (Z.div_mod (1000 * r) t ltac:(lia)) as D1. pose proof (Z.mod_pos_bound (1000 * r) t ltac:(lia)) as D2. fold s in D1.
  pose proof (Z.div_mod 1000000 s ltac:(lia)) as E1. pose proof (Z.mod_pos_bound 1000000 s ltac:(lia)) as E2. set (e := 1000000 / s) in *. assert (0 <= e) by (apply Z.div_pos; lia). split; nia.
Qed.
Lemma raw_mono r r' t : 0 <= r <= r' -> r' <= t -> t < 8 * r -> raw r' t <= raw r t.
Proof.
  intros A B C. destruct (raw_range r t ltac:(lia) C) as [X _]. unfold raw. apply Z.div_le_compat_l; [lia|]. split; [lia|]. apply Z.div_le_mono; lia.
Qed.
Lemma smooth_range rate e : 1000 <= rate <= 8000 -> 1000 <= e <= 8000 -> 1000 <= smooth rate e <= 8000.
Proof. unfold smooth. intros. destruct (_ && _); lia. Qed.
Lemma smooth_mono rate e e' : 1000 <= rate <= 8000 -> 1000 <= e <= e' -> e' <= 8000 -> smooth rate e <= smooth rate e'.
Proof.
  unfold smooth. intros. destruct (Z.ltb_spec 1000 e), (Z.ltb_spec e 8000), (Z.leb_spec (rate - 100) e), (Z.leb_spec e (rate + 100)), (Z.ltb_spec 1000 e'), (Z.ltb_spec e' 8000), (Z.leb_spec (rate - 100) e'), (Z.leb_spec e' (rate + 100)); cbn [andb]; lia.
Qed.
Lemma loss_mono rate r r' t : 1000 <= rate <= 8000 -> 0 <= r <= r' -> r' <= t -> loss_fun rate r' t <= loss_fun rate r t.
Proof.
  intros R A B. unfold loss_fun. destruct (Z.ltb_spec t (8 * r)) as [L|L].
  - destruct (Z.ltb_spec t (8 * r')); [|lia]. destruct (raw_range r t ltac:(lia) L) as [_ X]. destruct (raw_range r' t ltac:(lia) ltac:(lia)) as [_ Y]. apply smooth_mono; [exact R|split; [lia|apply raw_mono; lia]|lia].
  - destruct (Z.ltb_spec t (8 * r')); [|lia]. destruct (raw_range r' t ltac:(lia) ltac:(lia)) as [_ Y]. apply (smooth_range rate _ R) in Y. lia.
Qed.
Lemma loss_range rate r t : 1000 <= rate <= 8000 -> 0 <= r <= t -> 1000 <= loss_fun rate r t <= 8000.
Proof. intros R A. unfold loss_fun. destruct (Z.ltb_spec t (8 * r)); [|lia]. apply smooth_range; [exact R|]. apply raw_range; lia. Qed.
(** linear: exponent 1 *)
Definition linear (g : config) (x : l2) : Prop := g_exponent g = 0 /\ l_loss x = None /\ l_rlq x = None.
Lemma loss_cost_lin g x neigh rate r t : linear g x -> 0 <= r <= t -> t < 2 ^ 29 -> exists rate', loss_cost g x neigh rate r t = (loss_fun rate r t, rate') /\ loss_spec rate r t (loss_fun rate r t) rate' /\ rate' = if t <? 8 * r then loss_fun rate r t else rate.
Proof.
  intros (EX & LL & LR) A B. unfold loss_cost, loss_spec. rewrite LL, LR. unfold SUCCESS_RANGE. rewrite u32_id by (unfold is_u32; lia). replace (r * 8) with (8 * r) by lia. unfold loss_fun. destruct (Z.eqb_spec t 0) as [->|T]; cbn [negb andb].
  { destruct (Z.ltb_spec 0 (8 * r)); [lia|]. cbn. eexists. split; [reflexivity|]. split; [|reflexivity]. left. repeat split; lia. }
  destruct (Z.ltb_spec t (8 * r)) as [L|L].
  2:{ cbn. eexists. split; [reflexivity|]. split; [|reflexivity]. left. repeat split; lia. }
  destruct (raw_range r t A L) as [S1 S2]. cbn [Z.eqb Pos.eqb]. rewrite Z.quot_1_r. assert (exponent g neigh = 1) as -> by (unfold exponent; rewrite EX; reflexivity). change (Z.to_nat (1 - 1)) with 0%nat. cbn [squares]. destruct (Z.eqb_spec (1000 * r / t) 0); [lia|]. rewrite Z.quot_div_nonneg by lia. fold (raw r t). change (1000 * 8) with 8000.
  cbv zeta. fold (smooth rate (raw r t)). exists (smooth rate (raw r t)). split; [unfold smooth; destruct (_ && _); reflexivity|]. split; [|reflexivity]. right. split; [exact L|]. exists (raw r t). split; [apply raw_near; assumption|]. split; [exact S2|]. split; [reflexivity|]. unfold smooth.
  destruct (Z.ltb_spec 1000 (raw r t)), (Z.ltb_spec (raw r t) 8000), (Z.leb_spec (rate - 100) (raw r t)), (Z.leb_spec (raw r t) (rate + 100)); cbn [andb]; (left; reflexivity) || (right; lia).
Qed.
(** the product of the costs of speed and losses; the speed of the throughput of the
    layer2 database is averaged with it *)
Definition cost (v thr : option Z) (lc : Z) : Z :=
  match v, thr with
  | Some v, None => speed_cost v * lc / 1000
  | None, None => SPEED_RANGE * lc
  | Some v, Some w => (speed_cost v * lc / 1000 + speed_cost w) / 2
  | None, Some w => speed_cost w
  end.
Lemma s64_id z : - 2 ^ 63 <= z < 2 ^ 63 -> s64 z = z.
Proof.
  intros H. unfold s64. assert (u64 z = if z <? 0 then z + 2 ^ 64 else z) as E. { unfold u64. symmetry. destruct (Z.ltb_spec z 0); [apply (Z.mod_unique z _ (-1)); lia|apply (Z.mod_unique z _ 0); lia]. }
  rewrite E. cbv zeta. destruct (Z.ltb_spec z 0); [destruct (Z.ltb_spec (z + 2 ^ 64) 9223372036854775808); lia|destruct (Z.ltb_spec z 9223372036854775808); lia].
Qed.
Lemma cost_range v thr lc : 1000 <= lc <= 8000 -> 500 <= cost v thr lc <= SPEED_RANGE * 8000.
Proof.
  intros L. assert (forall a, 1000 <= speed_cost a * lc / 1000 <= SPEED_RANGE * 8000) as X. { intros a. pose proof (speed_cost_range a) as R. unfold SPEED_RANGE in *. split; [apply Z.div_le_lower_bound; nia|apply Z.div_le_upper_bound; nia]. }
  unfold cost. destruct v as [v|], thr as [w|]; try (pose proof (speed_cost_range w) as R); try (specialize (X v)); unfold SPEED_RANGE in *; try lia.
Qed.
Lemma cost_mono v thr lc lc' : 1000 <= lc <= lc' -> cost v thr lc <= cost v thr lc'.
Proof.
  intros L. assert (forall a, speed_cost a * lc / 1000 <= speed_cost a * lc' / 1000) as X. { intros a. pose proof (speed_cost_range a). apply Z.div_le_mono; nia. }
  unfold cost. destruct v as [v|], thr as [w|]; try (specialize (X v)); unfold SPEED_RANGE in *; try lia. all: apply Z.div_le_mono; lia.
Qed.
Lemma cost_speed v w thr lc : 0 < v <= w -> 1000 <= lc -> cost (Some w) thr lc <= cost (Some v) thr lc.
Proof.
  intros H L. pose proof (speed_cost_mono v w H). assert (speed_cost w * lc / 1000 <= speed_cost v * lc / 1000) by (apply Z.div_le_mono; nia). unfold cost. destruct thr; [apply Z.div_le_mono; lia|assumption].
Qed.
(** the median speed, if there is one *)
Definition med (bs : list bucket) (v : option Z) : Prop :=
  let a := map (fun b => s32 (b_speed b)) bs in
  match v with None => forall y, In y a -> y <= 0 | Some m => is_median m a end.
Lemma metric_lin g x count k r t : ok k -> linear g x -> 0 <= r <= t -> t < 2 ^ 29 -> 1000 <= k_rate k <= 8000 ->
  exists v rate, med (k_buckets k) v /\ loss_spec (k_rate k) r t (loss_fun (k_rate k) r t) rate /\ 1000 <= rate <= 8000 /\
   metric g x count k r t = Some (shape (cost v (l_thr x) (loss_fun (k_rate k) r t) / 1000), rate, 0).
Proof.
  intros [A B N F] LN RT TB RR. destruct (bitrate_cost_spec (k_buckets k) A) as (m & M1 & BC). destruct (median_spec (k_buckets k) A) as (m' & M2 & MS). rewrite M1 in M2. injection M2 as <-.
  destruct (loss_cost_lin g x (k_neigh k) (k_rate k) r t LN RT TB) as (rate & LC & LS & RE). pose proof (loss_range (k_rate k) r t RR RT) as LR. set (lc := loss_fun (k_rate k) r t) in *.
  exists (if m =? -1 then None else Some m), rate. split.
  { unfold med. destruct MS as [[-> MS]|MS]; [exact MS|]. destruct (Z.eqb_spec m (-1)) as [->|]; [|exact MS]. destruct MS as [MS _]. lia. }
  split; [exact LS|]. split; [rewrite RE; destruct (t <? 8 * r); assumption|]. unfold metric, throughput_cost. rewrite BC, LC.
  assert (forall a, 0 <= speed_cost a * lc <= 1000 * SPEED_RANGE * 8000) as SC by (intros a; pose proof (speed_cost_range a); unfold SPEED_RANGE in *; nia).
  assert (mic_cost g count (k_neigh k) = (1000, 0)) as MC by (unfold mic_cost; rewrite N; destruct (g_mic g); reflexivity).
  match goal with |- match ?T with _ => _ end = _ => assert (T = Some (cost (if m =? -1 then None else Some m) (l_thr x) lc, rate)) as -> end.
  { destruct (Z.ltb_spec 0 lc); [|lia]. destruct (Z.eqb_spec m (-1)) as [E|E].
    - change (0 <? -1) with false. cbn [andb]. cbv iota beta. unfold cost. destruct (l_thr x) as [w|].
      + change (0 + 1 =? 0) with false. cbn [andb]. cbv iota beta. rewrite Z.add_0_l, Z.quot_1_r. fold (speed_cost w). unfold speed_cost. pose proof (scale_range w). rewrite Z.quot_div_nonneg by (unfold SPEED_RANGE; lia). reflexivity.
      + change (0 =? 0) with true. cbn [andb]. change (1 =? 0) with false. cbv iota beta. rewrite Z.quot_1_r. rewrite s64_id by (unfold SPEED_RANGE; lia). reflexivity.
    - pose proof (speed_cost_range m). destruct (Z.ltb_spec 0 (speed_cost m)); [|lia]. cbn [andb]. cbv iota beta. rewrite s64_id by (specialize (SC m); unfold SPEED_RANGE in *; lia). rewrite Z.quot_div_nonneg by (specialize (SC m); lia). unfold cost. destruct (l_thr x) as [w|].
      + change (1 + 1 =? 0) with false. cbn [andb]. cbv iota beta. pose proof (scale_range w). pose proof (speed_cost_range w). rewrite (Z.quot_div_nonneg (1000 * SPEED_RANGE)) by (unfold SPEED_RANGE; lia). fold (speed_cost w). change (1 + 1) with 2. rewrite Z.quot_div_nonneg; [reflexivity| |lia]. assert (0 <= speed_cost m * lc / 1000) by (apply Z.div_pos; specialize (SC m); lia). lia.
      + change (1 =? 0) with false. cbn [andb]. cbv iota beta. rewrite Z.quot_1_r. reflexivity. }
  rewrite MC. pose proof (cost_range (if m =? -1 then None else Some m) (l_thr x) lc LR) as CR. set (c := cost (if m =? -1 then None else Some m) (l_thr x) lc) in *. unfold SPEED_RANGE in CR. rewrite u64_id by (unfold is_u64; lia). replace 1000000 with (1000 * 1000) by reflexivity. rewrite Z.div_mul_cancel_r by lia. reflexivity.
Qed.

(** ** The speeds in the ring are those of the last samples *)
(** the speeds found by samples of a link that is heard, the last one first *)
Fixpoint sampled (os : list op) (data : bool) (acc : list Z) : list Z :=
  match os with
  | [] => acc
  | Packet _ :: os' => sampled os' true acc
  | Sample _ x _ _ :: os' => sampled os' data (if data then l_speed x :: acc else acc)
  | _ :: os' => sampled os' data acc
  end.
Definition heard (os : list op) : bool := existsb (fun o => match o with Packet _ => true | _ => false end) os.
Definition speeds (acc : list Z) : list Z := acc ++ repeat 0 32.
Record sinv (k : link) (data : bool) (acc : list Z) : Prop := {
  s_ok : ok k; s_data : k_data k = data; s_ring : exists d, map b_speed (ages (k_ptr k) (k_buckets k)) = d :: firstn 31 (speeds acc) }.

Lemma sinv_added i v : sinv (added i v) false [].
Proof. constructor; [apply added_ok|reflexivity|exists 0; reflexivity]. Qed.
Lemma packet_sinv s k data acc : sinv k data acc -> exists k', packet s k = Some k' /\ sinv k' true acc /\ k_rate k' = k_rate k.
Proof.
  intros [O D (d & R)]. destruct (ok_split k O) as (l1 & b & l2 & E & P). destruct (packet_ok s k l1 b l2 O E P) as (k' & b' & EP & O' & D' & S' & P' & E' & _ & SP). exists k'. split; [exact EP|]. split.
  - constructor; [exact O'|exact D'|]. exists d. rewrite P', E', <- P, ages_split. rewrite E, <- P, ages_split in R. cbn [map] in *. rewrite SP. exact R.
  - clear - EP. unfold packet in EP. destruct (k_data k); cbn [negb] in EP; (destruct (zget _ _); [|discriminate]; destruct (zset _ _ _); [|discriminate]; injection EP as <-; reflexivity).
Qed.
Lemma changed_sinv i v k data acc : sinv k data acc -> sinv (changed i v k) data acc.
Proof. intros [[A B N F] D R]. constructor; [constructor; assumption|exact D|exact R]. Qed.
Lemma lost_sinv k data acc : sinv k data acc -> sinv (hello_lost k) data acc /\ k_rate (hello_lost k) = k_rate k.
Proof.
  intros H. unfold hello_lost. destruct (k_data k) eqn:DD; [|split; [exact H|reflexivity]]. destruct H as [[A B N F] D R]. split; [|reflexivity]. constructor; [constructor; cbn [k_buckets k_ptr k_neigh k_data]; try assumption; discriminate|rewrite DD in D; exact D|exact R].
Qed.
Lemma speeds_push (a : Z) acc : firstn 31 (a :: firstn 31 (speeds acc)) = firstn 31 (speeds (a :: acc)).
Proof.
  change (firstn 31 (a :: firstn 31 (speeds acc))) with (a :: firstn 30 (firstn 31 (speeds acc))). rewrite firstn_firstn. reflexivity.
Qed.
(** a sample of a link that is heard: what the metric is computed from *)
Lemma sample_sinv g x count refresh k acc : sinv k true acc -> exists m k' k1 rate, sample g x count refresh k = Some (Some m, k') /\ sinv k' true (l_speed x :: acc) /\ k_rate k' = rate /\ ok k1 /\ k_rate k1 = k_rate k /\
   metric g x count k1 (effective k refresh) (sum_total (k_buckets k)) = Some (m, rate, 0) /\ Permutation (map b_speed (k_buckets k1)) (firstn 32 (speeds (l_speed x :: acc))) /\
   METRIC_MIN <= m <= METRIC_MAX /\ exists code, 0 <= code < 4096 /\ m = metric_value code.
Proof.
  intros [O D (d & R)]. destruct (ok_split k O) as (l1 & b & l2 & E & P). destruct (sample_ok g x count refresh k l1 b l2 O D E P) as (m & k' & k1 & rate & ES & O' & D' & S' & RT & EM & R1 & E1 & _ & MR & O1 & d' & SP). exists m, k', k1, rate.
  rewrite E, <- P, ages_split in R. cbn [map] in R. injection R as _ R.
  assert (map b_speed (ages (k_ptr k) (k_buckets k1)) = l_speed x :: firstn 31 (speeds acc)) as SA by (rewrite E1, <- P, ages_split; cbn [map b_speed]; rewrite R; reflexivity).
  split; [exact ES|]. split; [constructor; [exact O'|exact D'|exists d'; rewrite SP, SA, speeds_push; reflexivity]|]. split; [exact RT|]. split; [exact O1|]. split; [exact R1|]. split; [exact EM|]. split; [|exact MR].
  rewrite <- (ages_perm (k_ptr k) (k_buckets k1)), SA. reflexivity.
Qed.
Lemma heard_cons o os : heard (o :: os) = (match o with Packet _ => true | _ => false end || heard os).
Proof. reflexivity. Qed.
(** ** No failures; all metrics can be transmitted *)
Definition valid (m : Z) : Prop := METRIC_MIN <= m <= METRIC_MAX /\ exists code, 0 <= code < 4096 /\ m = metric_value code.
Lemma run_sinv os : forall k data acc, sinv k data acc -> exists ms k', run os k = Some (ms, k') /\ sinv k' (data || heard os) (sampled os data acc) /\ Forall valid ms.
Proof.
  induction os as [|o os IH]; intros k data acc H; cbn [run sampled].
  { exists [], k. split; [reflexivity|]. split; [rewrite orb_false_r; exact H|constructor]. }
  rewrite heard_cons. destruct o as [s | | it vt | g x count refresh]; cbn [step orb].
  - destruct (packet_sinv s k data acc H) as (k' & -> & H' & _). destruct (IH _ _ _ H') as (ms & k2 & -> & H2 & V). exists ms, k2. split; [reflexivity|]. rewrite orb_true_r. split; [exact H2|exact V].
  - destruct (lost_sinv k data acc H) as [H' _]. destruct (IH _ _ _ H') as (ms & k2 & -> & H2 & V). exists ms, k2. auto.
  - destruct (IH _ _ _ (changed_sinv it vt k data acc H)) as (ms & k2 & -> & H2 & V). exists ms, k2. auto.
  - destruct data.
    + destruct (sample_sinv g x count refresh k acc H) as (m & k' & k1 & rate & -> & H' & _ & _ & _ & _ & _ & MV). destruct (IH _ _ _ H') as (ms & k2 & -> & H2 & V). exists (m :: ms), k2. split; [reflexivity|]. split; [exact H2|]. constructor; [exact MV|exact V].
    + unfold sample. rewrite (s_data _ _ _ H). cbn [negb]. destruct (IH _ _ _ H) as (ms & k2 & -> & H2 & V). exists ms, k2. auto.
Qed.
(** ** Linear costs *)
Definition all_linear (os : list (op * Z)) : Prop := forall g x count refresh n, In (Sample g x count refresh, n) os -> linear g x.
Lemma run_rate lo hi os : lo <= hi -> hi - lo < 2 ^ 28 -> forall k h data acc, inv k h -> sinv k data acc -> Forall good h -> Forall (bounds lo hi) h -> in_order os (last_of h) -> numbers lo hi os -> all_linear os -> 1000 <= k_rate k <= 8000 ->
  exists ms k', run (map fst os) k = Some (ms, k') /\ 1000 <= k_rate k' <= 8000.
Proof.
  intros LH SP. induction os as [|[o n] os IH]; intros k h data acc HI HS HG HB IO NB AL RR; cbn [map fst run]; [exists [], k; split; [reflexivity|exact RR]|].
  assert (numbers lo hi os) as NB' by (intros s m X; apply (NB s m); right; exact X). assert (all_linear os) as AL' by (intros g x c r m X; apply (AL g x c r m); right; exact X).
  pose proof (history_good [(o, n)] h HG) as HG'. pose proof (history_bounds lo hi [(o, n)] h HB HG) as HB'. cbn [history] in HG', HB'.
  assert (numbers lo hi [(o, n)]) as NB1 by (intros s m [X|[]]; apply (NB s m); left; exact X).
  destruct o as [s | | it vt | g x count refresh]; cbn [in_order step] in *.
  - destruct IO as (-> & L & IO). destruct (packet_inv k h n HI L) as (k' & E & HI'). destruct (packet_sinv (n mod 65536) k data acc HS) as (k'' & E2 & HS' & R'). rewrite E in E2. injection E2 as <-. rewrite E.
    destruct (IH k' (arrive n h) true acc HI' HS') as (ms & k2 & -> & H2); auto; [destruct h; exact IO|lia|]. exists ms, k2. split; [reflexivity|exact H2].
  - destruct (lost_sinv k data acc HS) as [HS' R']. destruct (IH _ h data acc (lost_inv k h HI) HS') as (ms & k2 & -> & H2); auto; [lia|]. exists ms, k2. auto.
  - destruct (IH _ h data acc (changed_inv it vt k h HI) (changed_sinv it vt k data acc HS)) as (ms & k2 & -> & H2); auto. exists ms, k2. auto.
  - destruct (sample_inv g x count refresh k h HI) as (m & k' & E & HI'). rewrite E. destruct data.
    + destruct (sample_sinv g x count refresh k acc HS) as (m2 & k2 & k1 & rate & E2 & HS' & R2 & O1 & R1 & EM & _). rewrite E in E2. injection E2 as -> <-.
      pose proof (received_total h HG (v_chain _ _ HI)) as RT. pose proof (total_bound lo hi h HB LH) as TB. rewrite (inv_total k h HI) in EM. rewrite u32_id in EM by (unfold is_u32; lia).
      pose proof (effective_le k refresh) as EL. rewrite (inv_recv k h HI), u32_id in EL by (unfold is_u32; lia).
      destruct (metric_lin g x count k1 (effective k refresh) (total h) O1 (AL _ _ _ _ _ (or_introl eq_refl)) ltac:(lia) ltac:(lia) ltac:(rewrite R1; exact RR)) as (v & rate' & _ & _ & RR' & EM'). rewrite EM in EM'. injection EM' as _ <-.
      destruct (IH k' (next h) true (l_speed x :: acc) HI' HS') as (ms & k3 & -> & H3); auto; [destruct h; exact IO|lia|]. exists (m2 :: ms), k3. auto.
    + pose proof (s_data _ _ _ HS) as D. unfold sample in E. rewrite D in E. cbn [negb] in E. injection E as <- <-. destruct (IH k (next h) false acc HI' HS) as (ms & k3 & -> & H3); auto; [destruct h; exact IO|]. exists ms, k3. auto.
Qed.
