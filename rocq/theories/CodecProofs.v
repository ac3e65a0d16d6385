(** Proofs about the codecs of rfc5444.c. *)
From Verif Require Import Base CodecModel CodecSpec.

(** * Time vector *)

Lemma nth_error_some_lt {A} (l : list A) n : (n < length l)%nat -> exists x, nth_error l n = Some x.
Proof.
  intros H. destruct (nth_error l n) eqn:E; eauto.
  apply nth_error_None in E. lia.
Qed.

Lemma vget_app p s i : i = Z.of_nat (length p) -> vget (p ++ s) i = hd_error s.
Proof.
  intros ->. unfold vget. destruct (Z.ltb_spec (Z.of_nat (length p)) 0); [lia|].
  rewrite Nat2Z.id, nth_error_app2 by lia. rewrite Nat.sub_diag. now destruct s.
Qed.

Lemma vec_loop_correct hop : forall fuel s p len,
  (length s <= fuel)%nat ->
  len = Z.of_nat (length (p ++ s)) ->
  Z.odd (Z.of_nat (length s)) = true ->
  timetlv_vec_loop (S fuel) (p ++ s) len hop (Z.of_nat (length p) + 1)
  = Some (vector_value s hop).
Proof.
  induction fuel as [fuel IH] using (well_founded_induction lt_wf).
  intros s p len Hf Hl Hodd.
  destruct s as [|t [|d s']]; [discriminate| |].
  - cbn [timetlv_vec_loop]. rewrite app_length in Hl; cbn [length] in Hl.
    destruct (Z.ltb_spec (Z.of_nat (length p) + 1) len); [lia|].
    replace (Z.of_nat (length p) + 1 - 1) with (Z.of_nat (length p)) by lia.
    now rewrite vget_app.
  - cbn [timetlv_vec_loop vector_value].
    assert (Hlen : len = Z.of_nat (length p) + 2 + Z.of_nat (length s')).
    { rewrite Hl, app_length. cbn [length]. lia. }
    destruct (Z.ltb_spec (Z.of_nat (length p) + 1) len); [|lia].
    replace (p ++ t :: d :: s') with ((p ++ [t]) ++ d :: s') by now rewrite <- app_assoc.
    rewrite vget_app by (rewrite app_length; cbn [length]; lia).
    cbn [hd_error]. destruct (hop <=? d).
    + rewrite <- app_assoc.
      replace (Z.of_nat (length p) + 1 - 1) with (Z.of_nat (length p)) by lia.
      now rewrite vget_app.
    + replace ((p ++ [t]) ++ d :: s') with ((p ++ [t; d]) ++ s') by now rewrite <- !app_assoc.
      assert (Hodd' : Z.odd (Z.of_nat (length s')) = true).
      { cbn [length] in Hodd. rewrite <- Hodd.
        replace (Z.of_nat (S (S (length s')))) with (Z.of_nat (length s') + 2 * 1) by lia.
        now rewrite Z.odd_add_mul_2. }
      cbn [length] in Hf.
      destruct fuel as [|[|f]]; [lia|lia|].
      replace (Z.of_nat (length p) + 1 + 2) with (Z.of_nat (length (p ++ [t; d])) + 1)
        by (rewrite app_length; cbn [length]; lia).
      apply (IH (S f)); [lia|lia| |assumption].
      rewrite Hlen, !app_length. cbn [length]. lia.
Qed.

Lemma land1_odd n : 0 <= n -> (Z.land n 1 =? 0) = negb (Z.odd n).
Proof.
  intros. change 1 with (Z.ones 1). rewrite Z.land_ones by lia.
  change (2 ^ 1) with 2. rewrite Zmod_odd. now destruct (Z.odd n).
Qed.

Lemma vector_correct v hop :
  timetlv_get_from_vector v hop =
  Some (if Z.odd (Z.of_nat (length v)) then vector_value v hop else 255).
Proof.
  unfold timetlv_get_from_vector. rewrite land1_odd by lia.
  destruct (Z.odd _) eqn:E; cbn [negb]; [|reflexivity].
  apply (vec_loop_correct hop (length v) v [] _); auto.
Qed.

(** * Time encoding *)

Lemma tt_halve_total : forall fuel b d, 0 <= d <= 2 ^ Z.of_nat fuel -> d < 2 ^ 63 ->
  exists r, tt_halve (S fuel) b d = Some r.
Proof.
  induction fuel as [|f IH]; intros b d Hd Hd2.
  - cbn [tt_halve]. change (2 ^ Z.of_nat 0) with 1 in Hd.
    destruct (Z.gtb_spec d 1875); [lia|eauto].
  - change (tt_halve (S (S f)) b d) with
      (if d >? 1875 then tt_halve (S f) (u32 (b + 1)) (Z.shiftr (u64 (d + 1)) 1) else Some (b, d)).
    destruct (Z.gtb_spec d 1875); [|eauto].
    rewrite u64_id by (unfold is_u64; lia).
    rewrite Z.shiftr_div_pow2 by lia. change (2 ^ 1) with 2.
    rewrite Nat2Z.inj_succ, Z.pow_succ_r in Hd by lia.
    apply IH; [|]; zdm; lia.
Qed.

(** The halving loop gives a result in 938..1875 (or the input) with a larger exponent. *)
Lemma tt_halve_range : forall fuel b d b' d',
  1000 <= d < 2 ^ 63 \/ 938 <= d < 2 ^ 63 -> 0 <= b -> b + Z.of_nat fuel < 2 ^ 32 ->
  tt_halve fuel b d = Some (b', d') ->
  938 <= d' <= 1875 /\ b <= b' <= b + Z.of_nat fuel.
Proof.
  induction fuel as [|f IH]; intros b d b' d' Hd Hb Hbf; cbn [tt_halve]; [discriminate|].
  destruct (Z.gtb_spec d 1875).
  - rewrite u64_id by (unfold is_u64; lia).
    rewrite u32_id by (unfold is_u32; lia).
    rewrite Z.shiftr_div_pow2 by lia. change (2 ^ 1) with 2. intros H'.
    apply IH in H'; [lia| |lia|lia]. right. zdm; lia.
  - intros [= <- <-]. lia.
Qed.

Definition tt_code (bd : Z * Z) : Z := (snd bd - 1000 + 124) / 125 + 8 * fst bd.

Lemma tt_halve_mono : forall fuel b d1 d2 r1 r2,
  938 <= d1 <= d2 -> d2 < 2 ^ 63 -> 0 <= b -> b + Z.of_nat fuel < 2 ^ 32 ->
  tt_halve fuel b d1 = Some r1 -> tt_halve fuel b d2 = Some r2 ->
  tt_code r1 <= tt_code r2.
Proof.
  induction fuel as [|f IH]; intros b d1 d2 r1 r2 Hd Hd2 Hb Hbf; cbn [tt_halve]; [discriminate|].
  destruct (Z.gtb_spec d1 1875), (Z.gtb_spec d2 1875); try lia.
  - rewrite !u64_id by (unfold is_u64; lia).
    rewrite u32_id by (unfold is_u32; lia).
    rewrite !Z.shiftr_div_pow2 by lia. change (2 ^ 1) with 2.
    apply IH; zdm; lia.
  - intros [= <-]. rewrite u64_id by (unfold is_u64; lia).
    rewrite u32_id by (unfold is_u32; lia).
    rewrite Z.shiftr_div_pow2 by lia. change (2 ^ 1) with 2.
    destruct r2 as [b2 d2']. intros H'. apply tt_halve_range in H'; [|zdm; lia|lia|lia].
    unfold tt_code; cbn [fst snd]. zdm; lia.
  - intros [= <-] [= <-]. unfold tt_code; cbn [fst snd].
    apply Z.add_le_mono_r. apply Z.div_le_mono; lia.
Qed.

(** Unclamped large-time encoding as a plain number. *)
Lemma encode_large t : 1000 <= t <= TIMETLV_MAX ->
  exists r, tt_halve 65 10 t = Some r /\ timetlv_encode t = Some (u8 (tt_code r)).
Proof.
  intros Ht. unfold TIMETLV_MAX in *.
  destruct (tt_halve_total 64 10 t) as [[b d] Hr]; [split; [lia|]; cbn; lia|lia|].
  exists (b, d); split; [assumption|].
  unfold timetlv_encode, TIMETLV_MIN, TIMETLV_MAX.
  destruct (Z.ltb_spec t 1); [lia|]. destruct (Z.gtb_spec t 0xdac00000); [lia|].
  rewrite Z.geb_leb. destruct (Z.leb_spec 1000 t); [|lia]. rewrite Hr.
  apply tt_halve_range in Hr; [|lia|lia|cbn; lia].
  unfold tt_code; cbn [fst snd]. f_equal.
  rewrite Z.shiftl_mul_pow2 by lia. change (2 ^ 3) with 8.
  rewrite (u32_id (b * 8)) by (unfold is_u32; lia).
  assert (E : u64 (u64 (d - 1000) + 124) = d - 1000 + 124).
  { unfold u64. rewrite Zplus_mod_idemp_l. apply Z.mod_small. lia. }
  rewrite E. rewrite (u32_id ((d - 1000 + 124) / 125)) by (unfold is_u32; zdm; lia).
  rewrite u32_id by (unfold is_u32; zdm; lia). f_equal. lia.
Qed.

Definition enc (t : Z) : Z := match timetlv_encode t with Some c => c | None => -1 end.

(** Monotonicity of the code on the large range, as a plain (unwrapped) number. *)
Definition big_code (t : Z) : Z :=
  match tt_halve 65 10 t with Some r => tt_code r | None => -1 end.

Lemma big_code_mono t1 t2 : 1000 <= t1 <= t2 -> t2 <= TIMETLV_MAX -> big_code t1 <= big_code t2.
Proof.
  intros H1 H2. unfold big_code.
  destruct (encode_large t1) as (r1 & E1 & _); [lia|].
  destruct (encode_large t2) as (r2 & E2 & _); [lia|].
  rewrite E1, E2. unfold TIMETLV_MAX in *.
  eapply (tt_halve_mono 65 10 t1 t2); eauto; try lia; cbn; lia.
Qed.

Lemma big_code_lo t : 1000 <= t <= TIMETLV_MAX -> 80 <= big_code t <= 254.
Proof.
  intros H. split.
  - change 80 with (big_code 1000). apply big_code_mono; unfold TIMETLV_MAX in *; lia.
  - change 254 with (big_code TIMETLV_MAX). apply big_code_mono; unfold TIMETLV_MAX in *; lia.
Qed.

Lemma enc_big t : 1000 <= t <= TIMETLV_MAX -> timetlv_encode t = Some (big_code t).
Proof.
  intros H. destruct (encode_large t H) as (r & E & ->).
  pose proof (big_code_lo t H) as B. unfold big_code in *. rewrite E in *.
  now rewrite u8_id by (unfold is_u8; lia).
Qed.

(** The value [ms c]: the largest whole number of ms not above the exact value. *)
Definition msv (c : Z) : Z := time_num c / 1024.

Lemma sweep_big :
  forallb (fun c => (big_code (msv c) =? c) &&
     ((c =? 254) || (big_code (msv c + 1) =? c + 1))) (zrange 80 175) = true.
Proof. vm_compute. reflexivity. Qed.

Lemma msv_range c : 80 <= c <= 254 -> 1000 <= msv c <= TIMETLV_MAX.
Proof.
  intros H.
  assert (S : forallb (fun c => (1000 <=? msv c) && (msv c <=? TIMETLV_MAX)) (zrange 80 175) = true)
    by (vm_compute; reflexivity).
  pose proof (zsweep _ _ _ S c ltac:(lia)) as S'. cbv beta in S'. lia.
Qed.

Lemma msv_mono_sweep c : 0 <= c < 254 -> time_num c < time_num (c + 1).
Proof.
  intros H.
  assert (S : forallb (fun c => time_num c <? time_num (c + 1)) (zrange 0 254) = true)
    by (vm_compute; reflexivity).
  pose proof (zsweep _ _ _ S c ltac:(lia)) as S'. cbv beta in S'. lia.
Qed.

Lemma time_num_mono c c' : 0 <= c <= c' -> c' <= 254 -> time_num c <= time_num c'.
Proof.
  intros H H'.
  assert (G : forall k, 0 <= k -> c + k <= 254 -> time_num c <= time_num (c + k)).
  { apply (natlike_ind (fun k => c + k <= 254 -> time_num c <= time_num (c + k))).
    - intros _. rewrite Z.add_0_r. lia.
    - intros x Hx IH Hb. pose proof (msv_mono_sweep (c + x) ltac:(lia)).
      replace (c + Z.succ x) with (c + x + 1) by lia. specialize (IH ltac:(lia)). lia. }
  specialize (G (c' - c) ltac:(lia) ltac:(lia)). now replace (c + (c' - c)) with c' in G by lia.
Qed.

Lemma le_num_msv t c : 1024 * t <= time_num c <-> t <= msv c.
Proof.
  unfold msv. split; intros.
  - apply Z.div_le_lower_bound; lia.
  - pose proof (Z.mul_div_le (time_num c) 1024 ltac:(lia)). lia.
Qed.

(** Every large time gets the least sufficient code. *)
Lemma big_best t : 1000 <= t <= TIMETLV_MAX -> best_time_code t (big_code t).
Proof.
  intros Ht. pose proof (big_code_lo t Ht) as B.
  assert (Hup : t <= msv (big_code t)).
  { destruct (Z.le_gt_cases t (msv (big_code t))); [assumption|exfalso].
    pose proof (zsweep _ _ _ sweep_big (big_code t) ltac:(lia)) as S. cbv beta in S.
    destruct (Z.eqb_spec (big_code t) 254) as [E254|E254].
    - rewrite E254 in H. change (msv 254) with TIMETLV_MAX in H. lia.
    - assert (big_code (msv (big_code t) + 1) <= big_code t).
      { apply big_code_mono; [|lia]. pose proof (msv_range (big_code t) ltac:(lia)). lia. }
      lia. }
  split; [lia|]. split; [now apply le_num_msv|].
  intros c' Hc' Hle. destruct (Z.le_gt_cases (big_code t) c'); [assumption|exfalso].
  apply le_num_msv in Hle.
  assert (80 <= c').
  { destruct (Z.le_gt_cases 80 c'); [assumption|].
    exfalso. assert (msv c' <= msv 79) by (unfold msv; apply Z.div_le_mono; [lia|]; apply time_num_mono; lia).
    change (msv 79) with 937 in *. lia. }
  assert (M : big_code t <= big_code (msv c')).
  { apply big_code_mono; [lia|]. apply msv_range; lia. }
  pose proof (zsweep _ _ _ sweep_big c' ltac:(lia)) as S. cbv beta in S. lia.
Qed.

Definition least_code (t : Z) : Z :=
  match find (fun c => 1024 * t <=? time_num c) (zrange 0 255) with Some c => c | None => -1 end.

Lemma find_least (P : Z -> bool) : forall n lo c,
  find P (zrange lo n) = Some c ->
  lo <= c < lo + Z.of_nat n /\ P c = true /\ forall c', lo <= c' < c -> P c' = false.
Proof.
  induction n as [|n IH]; intros lo c; cbn [zrange find]; [discriminate|].
  destruct (P lo) eqn:E.
  - intros [= <-]. repeat split; auto; lia.
  - intros H. apply IH in H. destruct H as (H1 & H2 & H3). repeat split; auto; try lia.
    intros c' Hc'. destruct (Z.eq_dec c' lo); [now subst|]. apply H3; lia.
Qed.

Lemma sweep_small :
  forallb (fun t => match timetlv_encode t with
                    | Some c => (c =? least_code t) && (0 <=? c)
                    | None => false end) (zrange 1 999) = true.
Proof. vm_compute. reflexivity. Qed.

Lemma small_best t : 1 <= t < 1000 -> exists c, timetlv_encode t = Some c /\ best_time_code t c.
Proof.
  intros Ht. pose proof (zsweep _ _ _ sweep_small t ltac:(lia)) as S. cbv beta in S.
  destruct (timetlv_encode t) as [c|]; [|discriminate].
  exists c; split; [reflexivity|].
  assert (c = least_code t) as E by lia. unfold least_code in E.
  destruct (find _ _) as [c0|] eqn:F; [|lia]. subst c0.
  apply find_least in F. destruct F as (F1 & F2 & F3).
  split; [lia|]. split; [lia|].
  intros c' Hc' Hle. destruct (Z.le_gt_cases c c'); [assumption|].
  specialize (F3 c' ltac:(lia)). cbv beta in F3. lia.
Qed.

Lemma timetlv_encode_best t : TIMETLV_MIN <= t <= TIMETLV_MAX ->
  exists c, timetlv_encode t = Some c /\ best_time_code t c.
Proof.
  unfold TIMETLV_MIN. intros Ht. destruct (Z.lt_ge_cases t 1000).
  - apply small_best; lia.
  - exists (big_code t). split; [apply enc_big; lia | apply big_best; lia].
Qed.

Lemma timetlv_decode_spec c : 1 <= c <= 254 -> timetlv_decode c = time_num c / 1024.
Proof.
  intros H.
  assert (S : forallb (fun c => timetlv_decode c =? time_num c / 1024) (zrange 1 254) = true)
    by (vm_compute; reflexivity).
  pose proof (zsweep _ _ _ S c ltac:(lia)) as S'. cbv beta in S'. lia.
Qed.

Lemma best_pos t c : 1 <= t -> best_time_code t c -> 1 <= c.
Proof.
  intros Ht (H1 & H2 & _). destruct (Z.eq_dec c 0) as [->|]; [|lia].
  change (time_num 0) with 1000 in H2. lia.
Qed.

(** decode (encode t) : never shorter, and tight *)
Lemma timetlv_roundtrip t : is_u64 t ->
  exists c, timetlv_encode t = Some c /\ is_u8 c /\
    t <= timetlv_decode c /\
    (t <= TIMETLV_MAX ->
     forall c', is_u8 c' -> t <= timetlv_decode c' -> timetlv_decode c <= timetlv_decode c').
Proof.
  unfold is_u64, is_u8. intros Ht.
  destruct (Z.lt_ge_cases t TIMETLV_MIN) as [H|H]; unfold TIMETLV_MIN in H.
  { exists 0. assert (t = 0) as -> by lia. split; [reflexivity|]. split; [lia|].
    split; [cbn; lia|]. intros _ c' Hc' _. change (timetlv_decode 0) with 0.
    assert (S : forallb (fun c => 0 <=? timetlv_decode c) (zrange 0 256) = true) by (vm_compute; reflexivity).
    pose proof (zsweep _ _ _ S c' ltac:(lia)) as S'. cbv beta in S'. lia. }
  destruct (Z.lt_ge_cases TIMETLV_MAX t) as [H'|H'].
  { exists 255. split.
    - unfold timetlv_encode. unfold TIMETLV_MIN, TIMETLV_MAX in *.
      destruct (Z.ltb_spec t 1); [lia|]. destruct (Z.gtb_spec t 0xdac00000); [reflexivity|lia].
    - split; [lia|]. split; [|lia]. change (timetlv_decode 255) with UINT64_MAX. unfold UINT64_MAX. lia. }
  destruct (timetlv_encode_best t) as (c & E & B); [unfold TIMETLV_MIN; lia|].
  exists c. pose proof (best_pos t c H B). destruct B as (B1 & B2 & B3).
  split; [assumption|]. split; [lia|].
  rewrite timetlv_decode_spec by lia. fold (msv c).
  split; [now apply le_num_msv|].
  intros _ c' Hc' Hle. destruct (Z.eq_dec c' 0) as [->|]; [change (timetlv_decode 0) with 0 in Hle; lia|].
  destruct (Z.eq_dec c' 255) as [->|].
  { change (timetlv_decode 255) with UINT64_MAX. unfold msv.
    assert (time_num c <= time_num 254) by (apply time_num_mono; lia).
    assert (time_num c / 1024 <= time_num 254 / 1024) by (apply Z.div_le_mono; lia).
    change (time_num 254 / 1024) with TIMETLV_MAX in *. unfold TIMETLV_MAX, UINT64_MAX in *. lia. }
  rewrite timetlv_decode_spec in * by lia.
  fold (msv c') in *. apply le_num_msv in Hle. unfold msv. apply Z.div_le_mono; [lia|].
  apply time_num_mono; [|lia]. split; [lia|]. apply B3; [lia|assumption].
Qed.

Lemma best_mono t1 t2 c1 c2 : t1 <= t2 -> best_time_code t1 c1 -> best_time_code t2 c2 -> c1 <= c2.
Proof. intros H (A1 & A2 & A3) (B1 & B2 & B3). apply A3; [assumption|lia]. Qed.

Lemma timetlv_encode_mono t1 t2 c1 c2 : is_u64 t1 -> is_u64 t2 -> t1 <= t2 ->
  timetlv_encode t1 = Some c1 -> timetlv_encode t2 = Some c2 -> c1 <= c2.
Proof.
  unfold is_u64; intros H1 H2 H E1 E2.
  assert (L : forall t c, 0 <= t -> timetlv_encode t = Some c -> 0 <= c <= 255).
  { intros t c Ht E. unfold timetlv_encode in E.
    destruct (t <? TIMETLV_MIN); [injection E as <-; lia|].
    destruct (t >? TIMETLV_MAX); [injection E as <-; lia|].
    destruct (if t >=? 1000 then _ else _) as [[b d]|]; [|discriminate].
    injection E as <-.
    match goal with |- 0 <= u8 ?x <= 255 => pose proof (u8_range x) as R; unfold is_u8 in R;
      generalize dependent (u8 x) end. intros; lia. }
  destruct (Z.lt_ge_cases t1 TIMETLV_MIN) as [A|A].
  { unfold timetlv_encode in E1. destruct (Z.ltb_spec t1 TIMETLV_MIN); [|lia].
    injection E1 as <-. apply (L t2); [lia|assumption]. }
  destruct (Z.lt_ge_cases TIMETLV_MAX t2) as [B|B].
  { unfold timetlv_encode in E2. destruct (Z.ltb_spec t2 TIMETLV_MIN); [lia|].
    destruct (Z.gtb_spec t2 TIMETLV_MAX); [|lia]. injection E2 as <-. apply (L t1); [lia|assumption]. }
  destruct (timetlv_encode_best t1) as (c1' & E1' & B1); [lia|].
  destruct (timetlv_encode_best t2) as (c2' & E2' & B2); [lia|].
  rewrite E1 in E1'. rewrite E2 in E2'. injection E1' as <-. injection E2' as <-.
  exact (best_mono t1 t2 c1 c2 H B1 B2).
Qed.

Lemma timetlv_decode_encode c : is_u8 c ->
  exists c', timetlv_encode (timetlv_decode c) = Some c' /\ timetlv_decode c' = timetlv_decode c /\
             (72 <= c -> c' = c).
Proof.
  unfold is_u8; intros H.
  assert (S : forallb (fun c => match timetlv_encode (timetlv_decode c) with
     | Some c' => (timetlv_decode c' =? timetlv_decode c) && ((c <? 72) || (c' =? c))
     | None => false end) (zrange 0 256) = true) by (vm_compute; reflexivity).
  pose proof (zsweep _ _ _ S c ltac:(lia)) as S'. cbv beta in S'.
  destruct (timetlv_encode _) as [c'|]; [|discriminate]. exists c'. split; [reflexivity|lia].
Qed.

(** * Metric encoding *)

Definition mcode (ad : Z * Z) : Z := 256 * fst ad + (snd ad - 257).

Lemma metric_halve_total : forall fuel a d, 0 <= d <= 2 ^ Z.of_nat fuel -> d < 2 ^ 31 ->
  exists r, metric_halve (S fuel) a d = Some r.
Proof.
  induction fuel as [|f IH]; intros b d Hd Hd2.
  - cbn [metric_halve]. change (2 ^ Z.of_nat 0) with 1 in Hd.
    destruct (Z.gtb_spec d 512); [lia|eauto].
  - change (metric_halve (S (S f)) b d) with
      (if d >? 512 then metric_halve (S f) (u8 (b + 1)) (Z.shiftr (u32 (d + 1)) 1) else Some (b, d)).
    destruct (Z.gtb_spec d 512); [|eauto].
    rewrite u32_id by (unfold is_u32; lia).
    rewrite Z.shiftr_div_pow2 by lia. change (2 ^ 1) with 2.
    rewrite Nat2Z.inj_succ, Z.pow_succ_r in Hd by lia.
    apply IH; zdm; lia.
Qed.

Lemma metric_halve_range : forall fuel a d a' d',
  257 <= d < 2 ^ 31 -> 0 <= a -> a + Z.of_nat fuel < 256 ->
  metric_halve fuel a d = Some (a', d') -> 257 <= d' <= 512 /\ a <= a' <= a + Z.of_nat fuel.
Proof.
  induction fuel as [|f IH]; intros a d a' d' Hd Ha Haf; cbn [metric_halve]; [discriminate|].
  destruct (Z.gtb_spec d 512).
  - rewrite u32_id by (unfold is_u32; lia). rewrite u8_id by (unfold is_u8; lia).
    rewrite Z.shiftr_div_pow2 by lia. change (2 ^ 1) with 2. intros H'.
    apply IH in H'; [lia| |lia|lia]. zdm; lia.
  - intros [= <- <-]. lia.
Qed.

Lemma metric_halve_mono : forall fuel a d1 d2 r1 r2,
  257 <= d1 <= d2 -> d2 < 2 ^ 31 -> 0 <= a -> a + Z.of_nat fuel < 256 ->
  metric_halve fuel a d1 = Some r1 -> metric_halve fuel a d2 = Some r2 -> mcode r1 <= mcode r2.
Proof.
  induction fuel as [|f IH]; intros a d1 d2 r1 r2 Hd Hd2 Ha Haf; cbn [metric_halve]; [discriminate|].
  destruct (Z.gtb_spec d1 512), (Z.gtb_spec d2 512); try lia.
  - rewrite !u32_id by (unfold is_u32; lia). rewrite u8_id by (unfold is_u8; lia).
    rewrite !Z.shiftr_div_pow2 by lia. change (2 ^ 1) with 2. apply IH; zdm; lia.
  - intros [= <-]. rewrite u32_id by (unfold is_u32; lia). rewrite u8_id by (unfold is_u8; lia).
    rewrite Z.shiftr_div_pow2 by lia. change (2 ^ 1) with 2.
    destruct r2 as [b2 d2']. intros H'. apply metric_halve_range in H'; [|zdm; lia|lia|lia].
    unfold mcode; cbn [fst snd]. lia.
  - intros [= <-] [= <-]. unfold mcode; cbn [fst snd]. lia.
Qed.

Definition menc (m : Z) : Z :=
  match metric_halve 33 0 (m + 256) with Some r => mcode r | None => -1 end.

Lemma metric_total m : 1 <= m <= METRIC_MAX -> exists r, metric_halve 33 0 (m + 256) = Some r.
Proof.
  intros H. unfold METRIC_MAX in H. apply metric_halve_total; [|lia].
  change (2 ^ Z.of_nat 32) with 4294967296. lia.
Qed.

Lemma menc_mono m1 m2 : 1 <= m1 <= m2 -> m2 <= METRIC_MAX -> menc m1 <= menc m2.
Proof.
  intros H1 H2. unfold menc. destruct (metric_total m1) as [r1 E1]; [lia|].
  destruct (metric_total m2) as [r2 E2]; [lia|]. rewrite E1, E2. unfold METRIC_MAX in *.
  eapply (metric_halve_mono 33 0); eauto; try lia. 
Qed.

Lemma menc_range m : 1 <= m <= METRIC_MAX -> 0 <= menc m < 4096.
Proof.
  intros H. split.
  - change 0 with (menc 1). apply menc_mono; lia.
  - assert (menc m <= menc METRIC_MAX) by (apply menc_mono; lia).
    change (menc METRIC_MAX) with 4095 in *. lia.
Qed.

Lemma metric_encode_menc m : 1 <= m <= METRIC_MAX ->
  metric_encode m = MetricOk (menc m / 256) (menc m mod 256).
Proof.
  intros H. pose proof (menc_range m H) as R. unfold menc in *.
  destruct (metric_total m H) as [[a d] E]. rewrite E in *.
  unfold metric_encode, METRIC_MIN, METRIC_INFINITE, METRIC_MAX in *.
  destruct (Z.ltb_spec m 1); [lia|]. rewrite Z.geb_leb.
  destruct (Z.leb_spec 0xffffff m); [lia|]. cbn [orb].
  destruct (Z.gtb_spec m 0xffff00); [lia|].
  rewrite u32_id by (unfold is_u32; lia). rewrite E.
  apply metric_halve_range in E; [|lia|lia|cbn; lia].
  unfold mcode in *; cbn [fst snd] in *. unfold u8.
  rewrite (Z.mod_small (d - 257) 256) by lia.
  f_equal; zdm; lia.
Qed.

Lemma sweep_metric :
  forallb (fun c => (menc (metric_value c) =? c) && ((c =? 4095) || (menc (metric_value c + 1) =? c + 1))
      && (1 <=? metric_value c) && (metric_value c <=? METRIC_MAX)
      && (metric_value c <? metric_value (c + 1))) (zrange 0 4096) = true.
Proof. vm_compute. reflexivity. Qed.

Lemma metric_sweep c : 0 <= c < 4096 ->
  menc (metric_value c) = c /\ (c < 4095 -> menc (metric_value c + 1) = c + 1) /\
  1 <= metric_value c <= METRIC_MAX.
Proof. intros H. pose proof (zsweep _ _ _ sweep_metric c ltac:(lia)) as S. cbv beta in S. lia. Qed.

Lemma menc_best m : 1 <= m <= METRIC_MAX -> best_metric_code m (menc m).
Proof.
  intros H. pose proof (menc_range m H) as R. destruct (metric_sweep (menc m) R) as (S1 & S2 & S3).
  split; [lia|]. split.
  - destruct (Z.le_gt_cases m (metric_value (menc m))); [assumption|exfalso].
    destruct (Z.eq_dec (menc m) 4095) as [E|E].
    + rewrite E in H0. change (metric_value 4095) with METRIC_MAX in H0. lia.
    + specialize (S2 ltac:(lia)).
      assert (menc (metric_value (menc m) + 1) <= menc m) by (apply menc_mono; lia). lia.
  - intros c' Hc' Hle. destruct (metric_sweep c' Hc') as (T1 & T2 & T3).
    rewrite <- T1. apply menc_mono; lia.
Qed.

Lemma metric_decode_spec b0 b1 : is_u8 b0 -> is_u8 b1 ->
  metric_decode b0 b1 = metric_value (256 * (b0 mod 16) + b1).
Proof.
  unfold is_u8; intros H0 H1. unfold metric_decode, metric_value.
  change 15 with (Z.ones 4). rewrite Z.land_ones by lia. change (2 ^ 4) with 16.
  pose proof (Z.mod_pos_bound b0 16 ltac:(lia)) as Hm.
  replace ((256 * (b0 mod 16) + b1) mod 256) with b1
    by (rewrite Z.mul_comm, Z.add_comm, Z.mod_add by lia; now rewrite Z.mod_small).
  replace ((256 * (b0 mod 16) + b1) / 256) with (b0 mod 16)
    by (rewrite Z.mul_comm, Z.add_comm, Z.div_add by lia; rewrite Z.div_small; lia).
  rewrite Z.shiftl_mul_pow2 by lia. apply u32_id. unfold is_u32.
  assert (1 <= 2 ^ (b0 mod 16)) by (assert (0 < 2 ^ (b0 mod 16)) by (apply Z.pow_pos_nonneg; lia); lia).
  assert (2 ^ (b0 mod 16) <= 2 ^ 15) by (apply Z.pow_le_mono_r; lia).
  change (2 ^ 15) with 32768 in *. nia.
Qed.

Lemma metric_encode_ok m : METRIC_MIN <= m <= METRIC_MAX ->
  exists b0 b1, metric_encode m = MetricOk b0 b1 /\ 0 <= b0 < 16 /\ is_u8 b1 /\
     best_metric_code m (256 * b0 + b1).
Proof.
  unfold METRIC_MIN; intros H. exists (menc m / 256), (menc m mod 256).
  pose proof (menc_range m H) as R.
  split; [now apply metric_encode_menc|]. unfold is_u8.
  split; [zdm; lia|]. split; [apply Z.mod_pos_bound; lia|].
  rewrite <- Z.div_mod by lia. now apply menc_best.
Qed.

Lemma metric_encode_err m : is_u32 m ->
  (metric_encode m = MetricErr <-> (m < METRIC_MIN \/ METRIC_INFINITE <= m)).
Proof.
  intros Hm. split.
  - intros E. destruct (Z.lt_ge_cases m METRIC_MIN) as [|A]; [now left|].
    destruct (Z.le_gt_cases METRIC_INFINITE m) as [|B]; [now right|]. exfalso.
    destruct (Z.le_gt_cases m METRIC_MAX).
    + rewrite metric_encode_menc in E by (unfold METRIC_MIN in *; lia). discriminate.
    + unfold metric_encode in E. destruct (Z.ltb_spec m METRIC_MIN); [lia|].
      rewrite Z.geb_leb in E. destruct (Z.leb_spec METRIC_INFINITE m); [lia|].
      destruct (Z.gtb_spec m METRIC_MAX); [|lia]. discriminate.
  - intros H. unfold metric_encode. rewrite Z.geb_leb.
    destruct (Z.ltb_spec m METRIC_MIN), (Z.leb_spec METRIC_INFINITE m); try lia; reflexivity.
Qed.

Lemma metric_roundtrip_code b0 b1 : is_u8 b0 -> is_u8 b1 ->
  metric_encode (metric_decode b0 b1) = MetricOk (b0 mod 16) b1.
Proof.
  intros H0 H1. rewrite metric_decode_spec by assumption. unfold is_u8 in *.
  pose proof (Z.mod_pos_bound b0 16 ltac:(lia)).
  destruct (metric_sweep (256 * (b0 mod 16) + b1) ltac:(lia)) as (S1 & _ & S3).
  rewrite metric_encode_menc by assumption. rewrite S1. f_equal; zdm; lia.
Qed.

(** * Sequence numbers *)

Lemma seqno_difference_correct a b : is_u16 a -> is_u16 b ->
  -32768 <= seqno_difference a b <= 32768 /\ ahead a b (seqno_difference a b).
Proof.
  unfold is_u16, seqno_difference, ahead; intros Ha Hb.
  destruct (Z.gtb_spec (a - b) 32768); [|destruct (Z.ltb_spec (a - b) (-32768))];
    (split; [lia|]).
  - replace (b + (a - b - 65536)) with (a + (-1) * 65536) by lia.
    rewrite Z.mod_add by lia. now rewrite Z.mod_small.
  - replace (b + (a - b + 65536)) with (a + 1 * 65536) by lia.
    rewrite Z.mod_add by lia. now rewrite Z.mod_small.
  - replace (b + (a - b)) with a by lia. now rewrite Z.mod_small.
Qed.

Lemma seqno_larger_correct a b : is_u16 a -> is_u16 b ->
  (seqno_is_larger a b = true <-> exists k, 1 <= k <= 32767 /\ ahead a b k).
Proof.
  unfold is_u16, seqno_is_larger, ahead; intros Ha Hb. split.
  - intros H. apply orb_true_iff in H. destruct H as [H|H]; apply andb_true_iff in H.
    + exists (a - b). split; [lia|]. replace (b + (a - b)) with a by lia. now rewrite Z.mod_small.
    + exists (a - b + 65536). split; [lia|].
      replace (b + (a - b + 65536)) with (a + 1 * 65536) by lia.
      rewrite Z.mod_add by lia. now rewrite Z.mod_small.
  - intros (k & Hk & E). zdm.
    assert (q = 0 \/ q = 1) as [-> | ->] by lia; lia.
Qed.

Lemma seqno_smaller_correct a b : is_u16 a -> is_u16 b ->
  (seqno_is_smaller a b = true <-> exists k, 1 <= k <= 32768 /\ ahead b a k).
Proof.
  unfold is_u16, seqno_is_smaller, seqno_is_larger, ahead; intros Ha Hb. split.
  - intros H. destruct (Z.lt_ge_cases a b).
    + exists (b - a). split; [lia|]. replace (a + (b - a)) with b by lia. now rewrite Z.mod_small.
    + exists (b - a + 65536). split; [lia|].
      replace (a + (b - a + 65536)) with (b + 1 * 65536) by lia.
      rewrite Z.mod_add by lia. now rewrite Z.mod_small.
  - intros (k & Hk & E). zdm.
    assert (q = 0 \/ q = 1) as [-> | ->] by lia; lia.
Qed.

Lemma seqno_exclusive a b : is_u16 a -> is_u16 b ->
  (seqno_is_larger a b = true -> seqno_is_smaller a b = false) /\
  (seqno_is_smaller a b = true -> seqno_is_larger a b = false) /\
  (seqno_is_larger a b = true -> seqno_is_smaller b a = true) /\
  ((a - b) mod 65536 <> 32768 -> (seqno_is_smaller b a = true <-> seqno_is_larger a b = true)).
Proof.
  unfold is_u16, seqno_is_smaller, seqno_is_larger; intros Ha Hb.
  repeat match goal with |- _ /\ _ => split end; try lia.
Qed.
