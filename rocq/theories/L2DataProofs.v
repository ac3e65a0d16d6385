(** Proofs about layer-2 values. *)
From Verif Require Import Base BufLemmas NetaddrModel NetaddrSpec StrBase StringModel L2DataModel L2DataSpec.

Ltac bd := repeat match goal with
  | |- context [Z.eqb ?a ?b] => destruct (Z.eqb_spec a b)
  | |- context [Z.ltb ?a ?b] => destruct (Z.ltb_spec a b)
  end.

Lemma decided_cons prio o v o' v' ws ow va : prio o < prio o' ->
  decided prio ((o', v') :: ws) ow va -> decided prio ((o, v) :: (o', v') :: ws) ow va.
Proof.
  intros P (b & v0 & a & E & B & A & V). exists ((o, v) :: b), v0, a. split; [rewrite E; reflexivity|]. split; [|split; assumption].
  intros w [<-|I]; [|apply B, I]. cbn [fst]. destruct b as [|x b]; cbn in E.
  - injection E as <- <- <-. exact P.
  - injection E as <- Er. specialize (B _ (or_introl eq_refl)). cbn [fst] in B. lia.
Qed.
Lemma decided_same prio o v v' ws ow va :
  decided prio ((o, v') :: ws) ow va -> decided prio ((o, v) :: (o, v') :: ws) ow va.
Proof.
  intros (b & v0 & a & E & B & A & V). destruct b as [|x b]; cbn in E.
  - injection E as <- <- <-. exists [], v, ((o, v') :: ws). split; [reflexivity|]. split; [easy|]. split.
    + intros w [<-|I]; [cbn; lia|apply A, I].
    + unfold last_of in *. cbn [fold_left fst snd]. rewrite Z.eqb_refl. exact V.
  - injection E as <- Er. exists ((o, v) :: (o, v') :: b), v0, a. split; [rewrite Er; reflexivity|]. split; [|split; assumption].
    intros w [<-|I]; [exact (B _ (or_introl eq_refl))|apply B, I].
Qed.
Lemma decided_weak prio o v o' v' ws ow va : prio o' <= prio o -> o' <> o ->
  decided prio ((o, v) :: ws) ow va -> decided prio ((o, v) :: (o', v') :: ws) ow va.
Proof.
  intros P N (b & v0 & a & E & B & A & V). destruct b as [|x b]; cbn in E.
  - injection E as <- <- <-. exists [], v, ((o', v') :: ws). split; [reflexivity|]. split; [easy|]. split.
    + intros w [<-|I]; [cbn; lia|apply A, I].
    + unfold last_of in *. cbn [fold_left fst snd]. destruct (Z.eqb_spec o' o); [easy|]. exact V.
  - injection E as <- Er. exists ((o, v) :: (o', v') :: b), v0, a. split; [rewrite Er; reflexivity|]. split; [|split; assumption].
    intros w [<-|[<-|I]].
    + exact (B _ (or_introl eq_refl)).
    + specialize (B _ (or_introl eq_refl)). cbn [fst] in *. lia.
    + apply B. right; exact I.
Qed.

Lemma write_owned prio m mm o v : (mm = None \/ mm = Some m) -> forall ws d, reading d = Some (m, v, o) ->
  exists d' ow va, write_all prio d mm ws = Some d' /\ reading d' = Some (m, va, ow) /\ decided prio ((o, v) :: ws) ow va.
Proof.
  intros M ws. revert o v. induction ws as [|[o' v'] ws IH]; intros o v d R.
  - exists d, o, v. split; [reflexivity|]. split; [exact R|]. exists [], v, []. cbn. repeat split; try easy.
  - cbn [write_all]. unfold reading in R. destruct d as [dv [dm|] [dow|]]; cbn in R; try discriminate. injection R as -> -> ->.
    unfold data_set; cbn [d_meta d_org d_val].
    assert (match mm with Some _ => mm | None => Some m end = Some m) as -> by (destruct M as [->| ->]; reflexivity).
    destruct (Z.eqb_spec o o') as [<-|N]; [|destruct (Z.ltb_spec (prio o) (prio o'))]; cbn [orb].
    + destruct (IH o v' (mkData v' (Some m) (Some o)) eq_refl) as (d' & ow & va & E & R & D).
      exists d', ow, va. split; [exact E|]. split; [exact R|]. apply decided_same, D.
    + destruct (IH o' v' (mkData v' (Some m) (Some o')) eq_refl) as (d' & ow & va & E & R & D).
      exists d', ow, va. split; [exact E|]. split; [exact R|]. apply decided_cons; assumption.
    + destruct (IH o v (mkData v (Some m) (Some o)) eq_refl) as (d' & ow & va & E & R & D).
      exists d', ow, va. split; [exact E|]. split; [exact R|]. apply decided_weak; [lia|congruence|exact D].
Qed.
Lemma write_empty prio m mm d ws : reading d = None -> ws <> [] -> mm = Some m \/ (mm = None /\ d_meta d = Some m) ->
  exists d' ow va, write_all prio d mm ws = Some d' /\ reading d' = Some (m, va, ow) /\ decided prio ws ow va.
Proof.
  intros R N M. destruct ws as [|[o v] ws]; [easy|]. cbn [write_all].
  assert (exists b, data_set prio d o mm v = Some (b, mkData v (Some m) (Some o))) as (b & ->).
  { unfold data_set, reading in *. destruct d as [dv [dm|] [dow|]]; cbn in *; try discriminate;
      destruct M as [->|[-> M]]; try (injection M as ->); solve [eexists; reflexivity | discriminate]. }
  destruct (write_owned prio m mm o v (match M with or_introl H => or_intror H | or_intror H => or_introl (proj1 H) end) ws
              (mkData v (Some m) (Some o)) eq_refl) as (d' & ow & va & E & R' & D).
  exists d', ow, va. auto.
Qed.

(** ** numbers *)
Lemma s64_id z : is_s64 z -> s64 z = z.
Proof. unfold is_s64, s64, u64. intros H. destruct (Z.ltb_spec (z mod 18446744073709551616) 9223372036854775808); zdm; lia. Qed.
Lemma s64_mod a b : (a - b) mod 18446744073709551616 = 0 -> s64 a = s64 b.
Proof. unfold s64, u64. intros H. assert (a mod 18446744073709551616 = b mod 18446744073709551616) as ->; [zdm; lia|reflexivity]. Qed.
Lemma s64_mul n k : is_s64 (n * k) -> s64 (u64 n * k) = n * k.
Proof.
  intros H. rewrite <- (s64_id (n * k) H). apply s64_mod. unfold u64.
  replace (n mod 18446744073709551616 * k - n * k) with ((- (n / 18446744073709551616) * k) * 18446744073709551616).
  - apply Z_mod_mult.
  - pose proof (Z_div_mod_eq_full n 18446744073709551616). nia.
Qed.
Lemma u64_pos n : 0 <= n < 9223372036854775808 -> u64 n = n.
Proof. intros. apply u64_id. unfold is_u64. lia. Qed.
Lemma s64_div n k : 0 <= n < 9223372036854775808 -> 0 < k -> s64 (u64 n / k) = n / k.
Proof.
  intros H K. rewrite u64_pos by exact H. apply s64_id. unfold is_s64. pose proof (Z.div_pos n k). pose proof (Z.div_le_upper_bound n k n ltac:(lia)).
  assert (n / k <= n) by (apply Z.div_le_upper_bound; nia). lia.
Qed.
Lemma s64_div1 n : is_s64 n -> s64 (u64 n / 1) = n.
Proof. intros H. rewrite Z.div_1_r. rewrite <- (s64_id n H) at 2. apply s64_mod. unfold u64, is_s64 in *. zdm; lia. Qed.

Lemma div_mul a b : 0 < b -> (b | a) -> (a / b) * b = a.
Proof. intros B (q & ->). rewrite Z.div_mul by lia. reflexivity. Qed.

(** finer or equal metadata scale: exact *)
Lemma scale_in_fine m n s : 0 < s <= m_scale m -> (s | m_scale m) -> is_s64 (n * (m_scale m / s)) ->
  exists v, scale_in m n s = Some v /\ same_quantity n s v (m_scale m).
Proof.
  intros S D R. exists (n * (m_scale m / s)). unfold scale_in. destruct (Z.eqb_spec s 0); [lia|].
  destruct (s >? m_scale m) eqn:G; [lia|]. rewrite s64_mul by exact R. split; [reflexivity|].
  unfold same_quantity. rewrite <- (div_mul (m_scale m) s) at 1 by (assumption || lia). ring.
Qed.
Lemma scale_in_coarse m n s : 0 < m_scale m < s -> (m_scale m | s) -> 0 <= n < 9223372036854775808 ->
  exists v, scale_in m n s = Some v /\ rounded_down n s v (m_scale m).
Proof.
  intros S D R. exists (n / (s / m_scale m)). unfold scale_in. destruct (Z.eqb_spec s 0); [lia|].
  destruct (s >? m_scale m) eqn:G; [|lia]. destruct (Z.eqb_spec (m_scale m) 0); [lia|].
  pose proof (div_mul s (m_scale m) ltac:(lia) D) as E. assert (0 < s / m_scale m) as K by nia.
  rewrite s64_div by (assumption || lia). split; [reflexivity|]. unfold rounded_down.
  set (k := s / m_scale m) in *. clearbody k. rewrite <- E. pose proof (Z_div_mod_eq_full n k). pose proof (Z.mod_pos_bound n k K). nia.
Qed.
Lemma scale_out_fine m v s : 0 < m_scale m < s -> (m_scale m | s) -> is_s64 (v * (s / m_scale m)) ->
  exists n, scale_out m v s = Some n /\ same_quantity v (m_scale m) n s.
Proof.
  intros S D R. exists (v * (s / m_scale m)). unfold scale_out. destruct (Z.eqb_spec s 0); [lia|].
  destruct (s >? m_scale m) eqn:G; [|lia]. destruct (Z.eqb_spec (m_scale m) 0); [lia|]. rewrite s64_mul by exact R. split; [reflexivity|].
  unfold same_quantity. rewrite <- (div_mul s (m_scale m)) at 1 by (assumption || lia). ring.
Qed.
Lemma scale_out_same m v s : s = 0 \/ s = m_scale m -> 0 < m_scale m -> is_s64 v -> scale_out m v s = Some v.
Proof.
  intros S M R. unfold scale_out. assert ((if s =? 0 then m_scale m else s) = m_scale m) as -> by (destruct (Z.eqb_spec s 0); [reflexivity|lia]).
  destruct (m_scale m >? m_scale m) eqn:G; [lia|]. destruct (Z.eqb_spec (m_scale m) 0); [lia|].
  rewrite Z.div_same by lia. change (1 =? 0) with false. cbv iota. rewrite s64_div1 by exact R. reflexivity.
Qed.
Lemma scale_out_coarse m v s : 0 < s <= m_scale m -> (s | m_scale m) -> 0 <= v < 9223372036854775808 ->
  exists n, scale_out m v s = Some n /\ rounded_down v (m_scale m) n s.
Proof.
  intros S D R. exists (v / (m_scale m / s)). unfold scale_out. destruct (Z.eqb_spec s 0); [lia|].
  destruct (s >? m_scale m) eqn:G; [lia|]. pose proof (div_mul (m_scale m) s ltac:(lia) D) as E. assert (0 < m_scale m / s) as K by nia.
  destruct (Z.eqb_spec s 0); [lia|]. destruct (Z.eqb_spec (m_scale m / s) 0); [lia|].
  rewrite s64_div by (assumption || lia). split; [reflexivity|]. unfold rounded_down.
  set (k := m_scale m / s) in *. clearbody k. rewrite <- E. pose proof (Z_div_mod_eq_full v k). pose proof (Z.mod_pos_bound v k K). nia.
Qed.

(** ** big endian *)
Lemma be_enc_len n : forall v, length (be_enc n v) = n.
Proof. induction n as [|n IH]; intros v; [reflexivity|]. cbn [be_enc]. rewrite app_length, IH. cbn. lia. Qed.
Lemma be_dec_app l x : be_dec (l ++ [x]) = be_dec l * 256 + x.
Proof. unfold be_dec. rewrite fold_left_app. reflexivity. Qed.
Lemma be_round n : forall v, 0 <= v < 256 ^ Z.of_nat n -> be_dec (be_enc n v) = v.
Proof.
  induction n as [|n IH]; intros v V.
  - change (256 ^ Z.of_nat 0) with 1 in V. cbn. lia.
  - cbn [be_enc]. rewrite be_dec_app. rewrite Nat2Z.inj_succ, Z.pow_succ_r in V by lia.
    rewrite IH by (split; [apply Z.div_pos; lia|apply Z.div_lt_upper_bound; lia]).
    pose proof (Z_div_mod_eq_full v 256). lia.
Qed.
Lemma be_enc_inj n a b : 0 <= a < 256 ^ Z.of_nat n -> 0 <= b < 256 ^ Z.of_nat n -> be_enc n a = be_enc n b -> a = b.
Proof. intros A B E. rewrite <- (be_round n a A), <- (be_round n b B), E. reflexivity. Qed.
Lemma be_enc_mod n : forall v k, be_enc n v = be_enc n (v + k * 256 ^ Z.of_nat n).
Proof.
  induction n as [|n IH]; intros v k; [reflexivity|]. cbn [be_enc]. rewrite Nat2Z.inj_succ, Z.pow_succ_r by lia.
  replace (v + k * (256 * 256 ^ Z.of_nat n)) with (v + (k * 256 ^ Z.of_nat n) * 256) by ring.
  rewrite Z.div_add, Z_mod_plus_full by lia. rewrite <- IH. reflexivity.
Qed.

Lemma s64_u64 v : is_s64 v -> s64 (u64 v) = v.
Proof. intros H. rewrite <- (s64_id v H) at 2. apply s64_mod. unfold u64. zdm; lia. Qed.
Lemma s32_u32 v : -2147483648 <= v < 2147483648 -> s32 (u32 (s32 v)) = v.
Proof. unfold s32, u32. intros H. repeat match goal with |- context [Z.ltb ?a ?b] => destruct (Z.ltb_spec a b) end; zdm; lia. Qed.
Lemma s16_u16 v : -32768 <= v < 32768 -> s16 (u16 (s16 v)) = v.
Proof. unfold s16, u16. intros H. repeat match goal with |- context [Z.ltb ?a ?b] => destruct (Z.ltb_spec a b) end; zdm; lia. Qed.
Lemma s8_u8 v : -128 <= v < 128 -> s8 (u8 (s8 v)) = v.
Proof. unfold s8, u8. intros H. repeat match goal with |- context [Z.ltb ?a ?b] => destruct (Z.ltb_spec a b) end; zdm; lia. Qed.
