(** Proofs about the exchange of metrics. *)
From Verif Require Import Base CodecModel CodecSpec CodecProofs DomModel DomSpec DomProofs.
From Coq Require Import Permutation.

Lemma flag_sweep : forallb (fun b => forallb (fun f => (Z.land (metric_set_flag b f) 15 =? Z.land b 15) &&
    (0 <=? metric_set_flag b f) && (metric_set_flag b f <? 256) &&
    forallb (fun g => Bool.eqb (metric_has_flag (metric_set_flag b f) g) ((f =? g) || metric_has_flag b g))
      [128; 64; 32; 16]) [128; 64; 32; 16]) (zrange 0 256) = true.
Proof. vm_compute. reflexivity. Qed.
Lemma noflag_sweep : forallb (fun b => forallb (fun f => negb (metric_has_flag b f)) [128; 64; 32; 16] && (Z.land b 15 =? b)) (zrange 0 16) = true.
Proof. vm_compute. reflexivity. Qed.

Definition isflag (f : Z) : Prop := In f [128; 64; 32; 16].
Lemma set_flag_ok b f : is_u8 b -> isflag f ->
  Z.land (metric_set_flag b f) 15 = Z.land b 15 /\ is_u8 (metric_set_flag b f) /\
  forall g, isflag g -> metric_has_flag (metric_set_flag b f) g = (f =? g) || metric_has_flag b g.
Proof.
  intros Hb Hf. pose proof (zsweep _ _ _ flag_sweep b ltac:(unfold is_u8 in Hb; lia)) as H.
  rewrite forallb_forall in H. specialize (H f Hf). rewrite !andb_true_iff, forallb_forall in H.
  destruct H as (((H1 & H2) & H3) & H4). split; [lia|]. split; [unfold is_u8; lia|].
  intros g Hg. specialize (H4 g Hg). now apply eqb_prop in H4.
Qed.
Lemma noflag b f : 0 <= b < 16 -> isflag f -> metric_has_flag b f = false.
Proof.
  intros Hb Hf. pose proof (zsweep _ _ _ noflag_sweep b ltac:(lia)) as H. cbv beta in H.
  rewrite andb_true_iff, forallb_forall in H. destruct H as (H & _). specialize (H f Hf). now apply negb_true_iff in H.
Qed.
Lemma land15_small b : 0 <= b < 16 -> Z.land b 15 = b.
Proof.
  intros Hb. pose proof (zsweep _ _ _ noflag_sweep b ltac:(lia)) as H. cbv beta in H.
  rewrite andb_true_iff in H. lia.
Qed.

Lemma flag_of_some k : 0 <= k < 4 -> exists f, flag_of k = Some f /\ isflag f.
Proof.
  intros H. assert (k = 0 \/ k = 1 \/ k = 2 \/ k = 3) as [-> | [-> | [-> | ->]]] by lia;
    (eexists; split; [reflexivity|]); unfold isflag; cbn; auto 10.
Qed.
Lemma flag_of_inj j k f g : flag_of j = Some f -> flag_of k = Some g -> (f =? g) = (j =? k).
Proof.
  intros H1 H2. pose proof (zget_bound _ _ _ H1) as B1. pose proof (zget_bound _ _ _ H2) as B2.
  unfold zlen in B1, B2; cbn [length] in B1, B2.
  assert (j = 0 \/ j = 1 \/ j = 2 \/ j = 3) as J by lia. assert (k = 0 \/ k = 1 \/ k = 2 \/ k = 3) as K by lia.
  clear B1 B2.
  destruct J as [-> | [-> | [-> | ->]]], K as [-> | [-> | [-> | ->]]];
    injection H1 as <-; injection H2 as <-; reflexivity.
Qed.

(** the inner loop *)
Lemma merge_ok e i : 0 <= i -> zlen e = 4 -> forall n j ms b, Z.of_nat n = j - i -> j < 4 -> zlen ms = 4 -> is_u8 b ->
  exists ms' b', merge_metrics n j i e ms b = Some (ms', b') /\ zlen ms' = 4 /\ is_u8 b' /\ Z.land b' 15 = Z.land b 15 /\
  forall k m ei ek f, zget ms k = Some m -> zget e i = Some ei -> zget e k = Some ek -> flag_of k = Some f ->
    if (i <? k) && (k <=? j) && (0 <? m) && same_code ei ek
    then zget ms' k = Some 0 /\ metric_has_flag b' f = true
    else zget ms' k = Some m /\ metric_has_flag b' f = metric_has_flag b f.
Proof.
  intros Hi Le. induction n as [|n IH]; intros j ms b Hn Hj Lm Hb.
  - cbn [merge_metrics]. exists ms, b. split; [auto|]. split; [auto|]. split; [auto|]. split; [auto|].
    intros k m ei ek f H1 H2 H3 H4. destruct (Z.ltb_spec i k), (Z.leb_spec k j); try lia; cbn [andb]; auto.
  - cbn [merge_metrics]. destruct (zget_Some ms j ltac:(lia)) as (mj & Hmj). rewrite Hmj.
    destruct (zget_Some e i ltac:(lia)) as (ei & Hei). rewrite Hei.
    destruct (zget_Some e j ltac:(lia)) as (ej & Hej). rewrite Hej.
    destruct (flag_of_some j ltac:(lia)) as (fj & Hfj & Ifj).
    destruct ((0 <? mj) && same_code ei ej) eqn:C.
    + rewrite Hfj. destruct (zset_some ms j 0 ltac:(lia)) as (ms1 & S1). rewrite S1.
      pose proof (zset_len _ _ _ _ S1) as L1.
      destruct (set_flag_ok b fj Hb Ifj) as (F1 & F2 & F3).
      destruct (IH (j - 1) ms1 (metric_set_flag b fj) ltac:(lia) ltac:(lia) ltac:(lia) F2) as (ms' & b' & G1 & G2 & G3 & G4 & G5).
      exists ms', b'. split; [auto|]. split; [auto|]. split; [auto|]. split; [congruence|].
      intros k m ei' ek f H1 H2 H3 H4. assert (ei' = ei) by congruence. subst ei'.
      destruct (Z.eq_dec k j) as [->|Hk].
      * assert (m = mj) by congruence. assert (ek = ej) by congruence. assert (f = fj) by congruence. subst.
        destruct (Z.ltb_spec i j), (Z.leb_spec j j); try lia. cbn [andb]. rewrite C.
        specialize (G5 j 0 ei ej fj). rewrite (zget_zset _ _ _ _ _ S1), Z.eqb_refl in G5.
        specialize (G5 eq_refl Hei Hej Hfj). change (0 <? 0) with false in G5.
        rewrite andb_false_r in G5. cbn [andb] in G5. destruct G5 as (G5 & G6). split; auto.
        rewrite G6, F3 by auto. now rewrite Z.eqb_refl.
      * specialize (G5 k m ei ek f). rewrite (zget_zset _ _ _ _ _ S1) in G5.
        destruct (Z.eqb_spec k j); [lia|]. specialize (G5 H1 Hei H3 H4).
        assert ((k <=? j - 1) = (k <=? j)) as EQ by lia. rewrite EQ in G5.
        destruct ((i <? k) && (k <=? j) && (0 <? m) && same_code ei ek); auto.
        destruct G5 as (G5 & G6). split; auto. rewrite G6, F3.
        -- rewrite (flag_of_inj j k fj f Hfj H4). destruct (Z.eqb_spec j k); [lia|auto].
        -- pose proof (zget_bound _ _ _ H4) as Bk. unfold zlen in Bk; cbn [length] in Bk.
           destruct (flag_of_some k ltac:(lia)) as (f' & E & I). assert (f' = f) by congruence. subst. auto.
    + destruct (IH (j - 1) ms b ltac:(lia) ltac:(lia) ltac:(lia) Hb) as (ms' & b' & G1 & G2 & G3 & G4 & G5).
      exists ms', b'. split; [auto|]. split; [auto|]. split; [auto|]. split; [auto|].
      intros k m ei' ek f H1 H2 H3 H4. assert (ei' = ei) by congruence. subst ei'.
      specialize (G5 k m ei ek f H1 Hei H3 H4).
      destruct (Z.eq_dec k j) as [->|Hk].
      * assert (m = mj) by congruence. assert (ek = ej) by congruence. subst.
        rewrite <- andb_assoc, C, andb_false_r.
        destruct (Z.ltb_spec i j), (Z.leb_spec j (j - 1)); try lia. cbn [andb] in G5. auto.
      * assert ((k <=? j - 1) = (k <=? j)) as EQ by lia. rewrite EQ in G5. auto.
Qed.

(** the outer loop *)
Definition code_ok (e : list (option (Z * Z))) (ms : list Z) : Prop :=
  forall k m, zget ms k = Some m -> 0 <= m /\ (0 < m -> exists b0 b1, zget e k = Some (Some (b0, b1)) /\ 0 <= b0 < 16 /\ is_u8 b1).

Lemma same_code_eq ei ek : same_code ei ek = true -> ei = ek /\ ei <> None.
Proof.
  destruct ei as [[a b]|], ek as [[c d]|]; cbn; try discriminate. intros H.
  apply andb_true_iff in H. destruct H as (H1 & H2). apply Z.eqb_eq in H1, H2. subst. split; [auto|discriminate].
Qed.

Lemma loop_ok e : zlen e = 4 -> forall n i ms, Z.of_nat n = 4 - i -> 0 <= i -> zlen ms = 4 -> code_ok e ms ->
  exists tlvs, write_metrics_loop n i e ms = Some tlvs /\
  forall k m f, zget ms k = Some m -> flag_of k = Some f ->
    (i <= k -> 0 < m -> exists v, In v tlvs /\ metric_has_flag (fst v) f = true) /\
    (forall v, In v tlvs -> metric_has_flag (fst v) f = true ->
       i <= k /\ 0 < m /\ is_u8 (fst v) /\ zget e k = Some (Some (Z.land (fst v) 15, snd v))).
Proof.
  intros Le. induction n as [|n IH]; intros i ms Hn Hi Lm CO; cbn [write_metrics_loop].
  - exists []. split; auto. intros k m f H1 H2. apply zget_bound in H1. split; [lia|intros v []].
  - destruct (zget_Some ms i ltac:(lia)) as (mi & Hmi). rewrite Hmi.
    destruct (Z.eqb_spec mi 0) as [->|Hm0].
    + destruct (IH (i + 1) ms ltac:(lia) ltac:(lia) Lm CO) as (tlvs & G1 & G2). exists tlvs. split; auto.
      intros k m f H1 H2. destruct (G2 k m f H1 H2) as (G3 & G4). split.
      * intros Hk Hm. apply G3; auto. destruct (Z.eq_dec k i) as [->|]; [|lia].
        assert (m = 0) by congruence. lia.
      * intros v Hv Hf. destruct (G4 v Hv Hf) as (A & B). split; [lia|auto].
    + destruct (CO i mi Hmi) as (M1 & M2). destruct (M2 ltac:(lia)) as (b0 & b1 & E1 & E2 & E3). rewrite E1.
      destruct (flag_of_some i ltac:(lia)) as (fi & Hfi & Ifi). rewrite Hfi.
      destruct (set_flag_ok b0 fi ltac:(unfold is_u8; lia) Ifi) as (F1 & F2 & F3).
      destruct (merge_ok e i Hi Le (Z.to_nat (3 - i)) 3 ms (metric_set_flag b0 fi) ltac:(lia) ltac:(lia) Lm F2)
        as (ms' & b' & G1 & G2 & G3 & G4 & G5).
      rewrite G1. cbn [fst snd].
      assert (forall k, 0 <= k < 4 -> exists m ek f, zget ms k = Some m /\ zget e k = Some ek /\ flag_of k = Some f /\ isflag f) as ALL.
      { intros k Hk. destruct (zget_Some ms k ltac:(lia)) as (m & ->). destruct (zget_Some e k ltac:(lia)) as (ek & ->).
        destruct (flag_of_some k Hk) as (f & -> & I). exists m, ek, f. auto. }
      assert (code_ok e ms') as CO'.
      { intros k m' Hk. pose proof (zget_bound _ _ _ Hk) as Bk.
        destruct (ALL k ltac:(lia)) as (m & ek & f & A1 & A2 & A3 & A4).
        specialize (G5 k m _ ek f A1 E1 A2 A3).
        destruct (_ && _); destruct G5 as (G5 & _).
        - assert (m' = 0) by congruence. subst. split; lia.
        - assert (m' = m) by congruence. subst. apply (CO k m A1). }
      destruct (IH (i + 1) ms' ltac:(lia) ltac:(lia) G2 CO') as (tl & W1 & W2). rewrite W1.
      exists ((b', b1) :: tl). split; [reflexivity|].
      assert (Z.land b' 15 = b0) as LB by (rewrite G4, F1; apply land15_small; auto).
      intros k m f H1 H2. pose proof (zget_bound _ _ _ H1) as Bk.
      destruct (ALL k ltac:(lia)) as (m0 & ek & f0 & A1 & A2 & A3 & A4).
      assert (m0 = m) by congruence. assert (f0 = f) by congruence. subst m0 f0.
      specialize (G5 k m _ ek f A1 E1 A2 A3).
      destruct ((i <? k) && (k <=? 3) && (0 <? m) && same_code (Some (b0, b1)) ek) eqn:C.
      * destruct G5 as (G5 & G6).
        rewrite !andb_true_iff in C. destruct C as (((C1 & C2) & C3) & C4).
        apply same_code_eq in C4. destruct C4 as (C4 & _). subst ek.
        destruct (W2 k 0 f G5 H2) as (W3 & W4). split.
        -- intros _ _. exists (b', b1). split; [left; auto|auto].
        -- intros v [<-|Hv] Hf; cbn [fst snd].
           ++ split; [lia|]. split; [lia|]. split; [auto|]. rewrite LB. auto.
           ++ destruct (W4 v Hv Hf) as (_ & ? & _). lia.
      * destruct G5 as (G5 & G6). rewrite F3 in G6 by auto. rewrite (noflag b0 f E2 A4), orb_false_r in G6.
        rewrite (flag_of_inj i k fi f Hfi H2) in G6.
        destruct (W2 k m f G5 H2) as (W3 & W4). split.
        -- intros Hk Hm. destruct (Z.eq_dec k i) as [->|].
           ++ exists (b', b1). split; [left; auto|]. cbn [fst]. rewrite G6. apply Z.eqb_refl.
           ++ destruct (W3 ltac:(lia) Hm) as (v & V1 & V2). exists v. split; [right; auto|auto].
        -- intros v [<-|Hv] Hf; cbn [fst snd].
           ++ cbn [fst] in Hf. rewrite G6 in Hf. apply Z.eqb_eq in Hf. subst k.
              assert (m = mi) by congruence. subst m. split; [lia|]. split; [lia|]. split; [auto|]. rewrite LB. auto.
           ++ destruct (W4 v Hv Hf) as (? & ?). split; [lia|auto].
Qed.

Lemma zget_cons1 {A} (x : A) l k : 0 < k -> zget (x :: l) k = zget l (k - 1).
Proof. intros H. pose proof (zget_cons x l (k - 1) ltac:(lia)) as E. replace (k - 1 + 1) with k in E by lia. exact E. Qed.

(** all four metrics are sent *)
Lemma enc_metrics_ok ms : Forall (fun m => 0 <= m <= METRIC_MAX) ms -> exists e, enc_metrics ms = Some e /\ zlen e = zlen ms /\
  forall k m, zget ms k = Some m -> 0 < m -> exists b0 b1, zget e k = Some (Some (b0, b1)) /\ 0 <= b0 < 16 /\ is_u8 b1 /\
    best_metric_code m (256 * b0 + b1).
Proof.
  induction ms as [|m ms IH]; intros F; cbn [enc_metrics].
  - exists []. split; [auto|]. split; [auto|]. intros k x H. apply zget_bound in H. unfold zlen in H; cbn in H; lia.
  - inversion F as [|? ? Hm F']; subst. destruct (IH F') as (e & H1 & H2 & H3). rewrite H1.
    destruct (Z.ltb_spec 0 m) as [P|P].
    + destruct (metric_encode_ok m ltac:(unfold METRIC_MIN; lia)) as (b0 & b1 & E1 & E2 & E3 & E4). rewrite E1.
      eexists. split; [reflexivity|]. split; [rewrite !zlen_cons; lia|].
      intros k x Hk Hx. pose proof (zget_bound _ _ _ Hk). destruct (Z.eq_dec k 0) as [->|].
      * cbn in Hk. injection Hk as <-. exists b0, b1. auto.
      * rewrite (zget_cons1 m ms) in Hk by lia. rewrite zget_cons1 by lia. apply (H3 (k - 1) x); auto.
    + eexists. split; [reflexivity|]. split; [rewrite !zlen_cons; lia|].
      intros k x Hk Hx. pose proof (zget_bound _ _ _ Hk). destruct (Z.eq_dec k 0) as [->|].
      * cbn in Hk. injection Hk as <-. lia.
      * rewrite (zget_cons1 m ms) in Hk by lia. rewrite zget_cons1 by lia. apply (H3 (k - 1) x); auto.
Qed.

Lemma write_metrics_ok ms : zlen ms = 4 -> Forall (fun m => 0 <= m) ms ->
  exists tlvs, write_metrics ms = Some tlvs /\
  forall k m f, zget ms k = Some m -> flag_of k = Some f ->
    (1 <= m <= METRIC_MAX -> exists v, In v tlvs /\ metric_has_flag (fst v) f = true) /\
    (forall v, In v tlvs -> metric_has_flag (fst v) f = true ->
       1 <= m <= METRIC_MAX /\ exists code, best_metric_code m code /\ metric_decode (fst v) (snd v) = metric_value code).
Proof.
  intros L F. unfold write_metrics.
  assert (Forall (fun m => 0 <= m <= METRIC_MAX) (map metric_cap ms)) as F1.
  { clear L. induction F as [|m ms Hm F IH]; cbn [map]; constructor; auto.
    unfold metric_cap. destruct (Z.ltb_spec METRIC_MAX m); [|lia]. unfold METRIC_MAX; lia. }
  destruct (enc_metrics_ok _ F1) as (e & E1 & E2 & E3). rewrite E1. rewrite zlen_map in E2.
  assert (code_ok e (map metric_cap ms)) as CO.
  { intros k m Hk. split.
    - rewrite Forall_forall in F1. apply F1. unfold zget in Hk. destruct (k <? 0); [discriminate|]. eapply nth_error_In; eauto.
    - intros P. destruct (E3 k m Hk P) as (b0 & b1 & Q1 & Q2 & Q3 & _). eauto. }
  destruct (loop_ok e ltac:(lia) 4%nat 0 (map metric_cap ms) ltac:(lia) ltac:(lia) ltac:(rewrite zlen_map; lia) CO) as (tlvs & W1 & W2).
  exists tlvs. split; [exact W1|]. intros k m f Hk Hf.
  assert (0 <= m) as Hm0.
  { rewrite Forall_forall in F. apply F. unfold zget in Hk. destruct (k <? 0); [discriminate|]. eapply nth_error_In; eauto. }
  assert (zget (map metric_cap ms) k = Some (metric_cap m)) as Hk' by (rewrite zget_map, Hk; auto).
  destruct (W2 k _ f Hk' Hf) as (W3 & W4). pose proof (zget_bound _ _ _ Hk) as Bk. split.
  - intros Hm. apply W3; [lia|]. unfold metric_cap. destruct (Z.ltb_spec METRIC_MAX m); lia.
  - intros v Hv Hfv. destruct (W4 v Hv Hfv) as (_ & P & U & Ev).
    destruct (E3 k _ Hk' P) as (b0 & b1 & Q1 & Q2 & Q3 & Q4).
    rewrite Ev in Q1. injection Q1 as Q5 Q6. subst b1.
    unfold metric_cap in *. destruct (Z.ltb_spec METRIC_MAX m); [lia|]. split; [lia|].
    exists (256 * b0 + snd v). split; auto. rewrite metric_decode_spec; auto. f_equal. f_equal. f_equal.
    rewrite <- Q5. change 15 with (Z.ones 4). rewrite Z.land_ones by lia. reflexivity.
Qed.

(** * Reading the TLVs *)
Lemma set_nout_id x : x = set_nout (n_out x) x.
Proof. now destruct x. Qed.

Definition in_flag (ext : Z) (flag : Z) (tlvs : list (Z * (Z * Z))) (v : Z * Z) : Prop :=
  In (ext, v) tlvs /\ metric_has_flag (fst v) flag = true.

Lemma link_tlv_ok i v l nd : 0 <= i < 4 -> zlen (k_data l) = 4 -> zlen nd = 4 ->
  exists kd nd', link_tlv i v l nd = Some (set_kdata kd l, nd') /\ zlen kd = 4 /\ zlen nd' = 4 /\
  (forall j x, zget nd j = Some x -> exists o, zget nd' j = Some (set_nout o x)) /\
  (forall j x, zget (k_data l) j = Some x ->
     zget kd j = Some (fst x, if (j =? i) && metric_has_flag (fst v) INCOMING_LINK then metric_decode (fst v) (snd v) else snd x)).
Proof.
  intros Hi L1 L2. unfold link_tlv.
  destruct (zget_Some (k_data l) i ltac:(lia)) as (x & Hx). destruct (zget_Some nd i ltac:(lia)) as (y & Hy).
  rewrite Hx, Hy. set (m := metric_decode (fst v) (snd v)).
  destruct (zset_some (k_data l) i (fst x, m) ltac:(lia)) as (kd1 & S1). rewrite S1.
  destruct (zset_some nd i (set_nout m y) ltac:(lia)) as (nd1 & S2). rewrite S2.
  pose proof (zset_len _ _ _ _ S1) as L3. pose proof (zset_len _ _ _ _ S2) as L4.
  exists (if metric_has_flag (fst v) INCOMING_LINK then kd1 else k_data l),
         (if metric_has_flag (fst v) INCOMING_NEIGH then nd1 else nd).
  split; [|split; [|split; [|split]]].
  - destruct (metric_has_flag (fst v) INCOMING_LINK), (metric_has_flag (fst v) INCOMING_NEIGH); try reflexivity;
      now destruct l.
  - destruct (metric_has_flag (fst v) INCOMING_LINK); lia.
  - destruct (metric_has_flag (fst v) INCOMING_NEIGH); lia.
  - intros j z Hz. destruct (metric_has_flag (fst v) INCOMING_NEIGH).
    + rewrite (zget_zset _ _ _ _ _ S2). destruct (Z.eqb_spec j i) as [->|].
      * assert (z = y) by congruence. subst. eauto.
      * exists (n_out z). rewrite Hz. f_equal. apply set_nout_id.
    + exists (n_out z). rewrite Hz. f_equal. apply set_nout_id.
  - intros j z Hz. destruct (metric_has_flag (fst v) INCOMING_LINK).
    + rewrite (zget_zset _ _ _ _ _ S1). rewrite andb_true_r. destruct (Z.eqb_spec j i) as [->|].
      * assert (z = x) by congruence. now subst.
      * rewrite Hz. now destruct z.
    + rewrite andb_false_r, Hz. now destruct z.
Qed.

Definition out_after (ds : list dom) (tlvs : list (Z * (Z * Z))) (j old o : Z) : Prop :=
  match zget ds j with
  | Some d => if d_nodef d then o = old
              else (o = old /\ forall v, ~ in_flag (d_ext d) INCOMING_LINK tlvs v) \/
                   (exists v, in_flag (d_ext d) INCOMING_LINK tlvs v /\ o = metric_decode (fst v) (snd v))
  | None => o = old
  end.

Lemma link_tlvs_ok ds : zlen ds <= 4 -> NoDup (map d_ext ds) -> forall tlvs l nd, zlen (k_data l) = 4 -> zlen nd = 4 ->
  exists kd nd', link_tlvs ds tlvs l nd = Some (set_kdata kd l, nd') /\ zlen kd = 4 /\ zlen nd' = 4 /\
  (forall j x, zget nd j = Some x -> exists o, zget nd' j = Some (set_nout o x)) /\
  (forall j x, zget (k_data l) j = Some x -> exists o, zget kd j = Some (fst x, o) /\ out_after ds tlvs j (snd x) o).
Proof.
  intros Ld Nd. induction tlvs as [|[ext v] tlvs IH]; intros l nd L1 L2; cbn [link_tlvs].
  - exists (k_data l), nd. split; [now destruct l|]. split; [auto|]. split; [auto|]. split.
    + intros j x H. exists (n_out x). rewrite H. f_equal. apply set_nout_id.
    + intros j x H. exists (snd x). split; [rewrite H; now destruct x|]. unfold out_after.
      destruct (zget ds j) as [d|]; auto. destruct (d_nodef d); auto. left. split; auto. intros w ([] & _).
  - assert (forall j old o, out_after ds tlvs j old o -> (match zget ds j with Some d => d_nodef d = true \/ d_ext d <> ext | None => True end) ->
              out_after ds ((ext, v) :: tlvs) j old o) as KEEP.
    { intros j old o H C. unfold out_after in *. destruct (zget ds j) as [d|]; auto. destruct (d_nodef d); auto.
      destruct C as [?|C]; [discriminate|]. destruct H as [(H1 & H2)|(w & (H1 & H2) & H3)].
      - left. split; auto. intros w ([E|E] & Q); [congruence|]. apply (H2 w). split; auto.
      - right. exists w. split; auto. split; auto. right; auto. }
    destruct (get_by_ext 0 ds ext) as [i|] eqn:G.
    + destruct (get_by_ext_some _ _ _ _ G) as (d & Hd & <-). replace (i - 0) with i in Hd by lia.
      pose proof (zget_bound _ _ _ Hd) as Bi. rewrite Hd.
      assert (forall j e, zget ds j = Some e -> d_ext e = d_ext d -> j = i) as UN.
      { intros j e He E. pose proof (get_by_ext_at ds Nd 0 j e He) as Q. rewrite E, G in Q. injection Q; lia. }
      destruct (d_nodef d) eqn:ND.
      * destruct (IH l nd L1 L2) as (kd & nd' & H1 & H2 & H3 & H4 & H5). exists kd, nd'.
        split; [auto|]. split; [auto|]. split; [auto|]. split; [auto|].
        intros j x Hx. destruct (H5 j x Hx) as (o & O1 & O2). exists o. split; auto. apply KEEP; auto.
        destruct (zget ds j) as [e|] eqn:He; auto. destruct (Z.eq_dec (d_ext e) (d_ext d)) as [E|]; auto.
        pose proof (UN j e He E). subst j. left. congruence.
      * destruct (link_tlv_ok i v l nd ltac:(lia) L1 L2) as (kd1 & nd1 & A1 & A2 & A3 & A4 & A5). rewrite A1. cbn [fst snd].
        destruct (IH (set_kdata kd1 l) nd1 A2 A3) as (kd & nd' & H1 & H2 & H3 & H4 & H5). cbn [k_data set_kdata] in H5.
        exists kd, nd'. split; [exact H1|]. split; [auto|]. split; [auto|]. split.
        -- intros j x Hx. destruct (A4 j x Hx) as (o1 & Q1). destruct (H4 j _ Q1) as (o2 & Q2). exists o2. rewrite Q2. reflexivity.
        -- intros j x Hx. specialize (A5 j x Hx). destruct (H5 j _ A5) as (o & O1 & O2). cbn [fst snd] in *.
           exists o. split; auto.
           destruct (Z.eqb_spec j i) as [->|Hji].
           ++ cbn [andb] in *. unfold out_after in *. rewrite Hd, ND in *.
              destruct O2 as [(O2 & O3)|(w & (O2 & O3) & O4)].
              ** destruct (metric_has_flag (fst v) INCOMING_LINK) eqn:FL.
                 --- right. exists v. split; auto. split; [left; auto|auto].
                 --- left. split; auto. intros w ([E|E] & Q).
                     +++ injection E as <-. congruence.
                     +++ apply (O3 w). split; auto.
              ** right. exists w. split; auto. split; [right; auto|auto].
           ++ cbn [andb] in O2. apply KEEP; auto. destruct (zget ds j) as [e|] eqn:He; auto.
              destruct (Z.eq_dec (d_ext e) (d_ext d)) as [E|]; auto. pose proof (UN j e He E). lia.
    + destruct (IH l nd L1 L2) as (kd & nd' & H1 & H2 & H3 & H4 & H5). exists kd, nd'.
      split; [auto|]. split; [auto|]. split; [auto|]. split; [auto|].
      intros j x Hx. destruct (H5 j x Hx) as (o & O1 & O2). exists o. split; auto. apply KEEP; auto.
      destruct (zget ds j) as [e|] eqn:He; auto. right. intros E. subst ext.
      rewrite (get_by_ext_at ds Nd 0 j e He) in G. discriminate.
Qed.

Lemma reset_out_ok : forall ds i kd, 0 <= i -> i + zlen ds <= zlen kd ->
  exists kd', reset_out i ds kd = Some kd' /\ zlen kd' = zlen kd /\
  forall j x, zget kd j = Some x -> zget kd' j = Some (fst x, if (i <=? j) && (j <? i + zlen ds) then METRIC_INFINITE else snd x).
Proof.
  induction ds as [|d ds IH]; intros i kd Hi HL; cbn [reset_out].
  - exists kd. split; [auto|]. split; [auto|]. intros j x H. change (zlen []) with 0.
    destruct (Z.leb_spec i j), (Z.ltb_spec j (i + 0)); try lia; cbn [andb]; rewrite H; now destruct x.
  - rewrite zlen_cons in *. pose proof (zlen_nonneg ds). destruct (zget_Some kd i ltac:(lia)) as (x & Hx). rewrite Hx.
    destruct (zset_some kd i (fst x, METRIC_INFINITE) ltac:(lia)) as (kd1 & S1). rewrite S1. pose proof (zset_len _ _ _ _ S1) as L1.
    destruct (IH (i + 1) kd1 ltac:(lia) ltac:(lia)) as (kd' & H1 & H2 & H3). exists kd'. split; [auto|]. split; [lia|].
    intros j y Hy. pose proof (zget_zset _ _ _ j _ S1) as Z1. rewrite Hy in Z1. destruct (Z.eqb_spec j i) as [->|Hj].
    + rewrite (H3 _ _ Z1). cbn [fst snd]. assert (y = x) by congruence. subst y.
      destruct (Z.leb_spec (i + 1) i), (Z.leb_spec i i), (Z.ltb_spec i (i + (zlen ds + 1))); try lia. reflexivity.
    + rewrite (H3 _ _ Z1). do 2 f_equal.
      destruct (Z.leb_spec (i + 1) j), (Z.leb_spec i j), (Z.ltb_spec j (i + (zlen ds + 1))), (Z.ltb_spec j (i + 1 + zlen ds)); try lia; reflexivity.
Qed.

(** from the TLVs which the sender wrote to those received *)
Lemma carries_flag all ext vs flag v : carries all ext vs -> (in_flag ext flag all v <-> In v vs /\ metric_has_flag (fst v) flag = true).
Proof.
  intros C. unfold in_flag. split.
  - intros (I & F). split; auto. eapply Permutation_in; [exact C|]. apply in_map_iff. exists (ext, v). split; auto.
    apply filter_In. split; auto. cbn. apply Z.eqb_refl.
  - intros (I & F). split; auto. apply Permutation_sym in C. eapply Permutation_in in I; [|exact C].
    apply in_map_iff in I. destruct I as ((e & w) & E & I). cbn in E. subst w. apply filter_In in I. destruct I as (I & E).
    cbn in E. apply Z.eqb_eq in E. now subst.
Qed.

Lemma received_out ds tlvs j o ms vs m d : zget ds j = Some d -> d_nodef d = false ->
  carries tlvs (d_ext d) vs -> write_metrics ms = Some vs -> zlen ms = 4 -> Forall (fun m => 0 <= m) ms ->
  zget ms 0 = Some m -> out_after ds tlvs j METRIC_INFINITE o -> received m o.
Proof.
  intros Hd ND C W L F Hm O.
  destruct (write_metrics_ok ms L F) as (vs' & W1 & W2). assert (vs' = vs) by congruence. subst vs'.
  destruct (W2 0 m INCOMING_LINK Hm eq_refl) as (W3 & W4).
  unfold out_after in O. rewrite Hd, ND in O. unfold received.
  destruct O as [(-> & O)|(v & O1 & ->)].
  - right. split; auto. intros Hr. destruct (W3 Hr) as (v & V1 & V2). apply (O v).
    apply (carries_flag _ _ _ _ v C). auto.
  - left. apply (carries_flag _ _ _ _ v C) in O1. destruct O1 as (O1 & O2).
    destruct (W4 v O1 O2) as (R & code & B & E). split; auto. eauto.
Qed.

(** * Two-hop neighbors *)
Lemma twohop_tlv_ok i v td : 0 <= i < 4 -> zlen td = 4 -> exists td', twohop_tlv i v td = Some td' /\ zlen td' = 4 /\
  forall j x, zget td j = Some x -> zget td' j = Some (
     if j =? i then mkTD (if metric_has_flag (fst v) INCOMING_NEIGH then metric_decode (fst v) (snd v) else t_in x)
                         (if metric_has_flag (fst v) OUTGOING_NEIGH then metric_decode (fst v) (snd v) else t_out x) (t_last x)
     else x).
Proof.
  intros Hi L. unfold twohop_tlv. destruct (zget_Some td i ltac:(lia)) as (x & Hx). rewrite Hx.
  set (m := metric_decode (fst v) (snd v)).
  destruct (zset_some td i (mkTD m (t_out x) (t_last x)) ltac:(lia)) as (td1 & S1). rewrite S1.
  pose proof (zset_len _ _ _ _ S1) as L1.
  destruct (metric_has_flag (fst v) INCOMING_NEIGH), (metric_has_flag (fst v) OUTGOING_NEIGH).
  - rewrite (zget_zset _ _ _ _ _ S1), Z.eqb_refl. cbn [t_in t_last].
    destruct (zset_some td1 i (mkTD m m (t_last x)) ltac:(lia)) as (td2 & S2). rewrite S2.
    pose proof (zset_len _ _ _ _ S2) as L2. exists td2. split; [auto|]. split; [lia|].
    intros j y Hy. rewrite (zget_zset _ _ _ _ _ S2), (zget_zset _ _ _ _ _ S1).
    destruct (Z.eqb_spec j i) as [->|]; auto. assert (y = x) by congruence. now subst.
  - exists td1. split; [auto|]. split; [lia|]. intros j y Hy. rewrite (zget_zset _ _ _ _ _ S1).
    destruct (Z.eqb_spec j i) as [->|]; auto. assert (y = x) by congruence. now subst.
  - rewrite Hx. destruct (zset_some td i (mkTD (t_in x) m (t_last x)) ltac:(lia)) as (td2 & S2). rewrite S2.
    pose proof (zset_len _ _ _ _ S2) as L2. exists td2. split; [auto|]. split; [lia|].
    intros j y Hy. rewrite (zget_zset _ _ _ _ _ S2).
    destruct (Z.eqb_spec j i) as [->|]; auto. assert (y = x) by congruence. now subst.
  - exists td. split; [auto|]. split; [auto|]. intros j y Hy. rewrite Hy.
    destruct (Z.eqb_spec j i) as [->|]; auto. now destruct y.
Qed.

Definition two_after (ds : list dom) (tlvs : list (Z * (Z * Z))) (flag j old o : Z) : Prop :=
  match zget ds j with
  | Some d => if d_nodef d then o = old
              else (o = old /\ forall v, ~ in_flag (d_ext d) flag tlvs v) \/
                   (exists v, in_flag (d_ext d) flag tlvs v /\ o = metric_decode (fst v) (snd v))
  | None => o = old
  end.
Lemma two_after_step ds tlvs flag j old o ext v i d : NoDup (map d_ext ds) -> zget ds i = Some d -> d_ext d = ext -> d_nodef d = false ->
  two_after ds tlvs flag j (if (j =? i) && metric_has_flag (fst v) flag then metric_decode (fst v) (snd v) else old) o ->
  two_after ds ((ext, v) :: tlvs) flag j old o.
Proof.
  intros Nd Hd <- ND O2. unfold two_after in *. destruct (Z.eqb_spec j i) as [->|Hji].
  - cbn [andb] in *. rewrite Hd, ND in *. destruct O2 as [(O2 & O3)|(w & (O2 & O3) & O4)].
    + destruct (metric_has_flag (fst v) flag) eqn:FL.
      * right. exists v. split; auto. split; [left; auto|auto].
      * left. split; auto. intros w ([E|E] & Q); [injection E as <-; congruence|apply (O3 w); split; auto].
    + right. exists w. split; auto. split; [right; auto|auto].
  - cbn [andb] in O2. destruct (zget ds j) as [e|] eqn:He; auto. destruct (d_nodef e); auto.
    assert (d_ext e <> d_ext d) as NE.
    { intros E. pose proof (get_by_ext_at ds Nd 0 j e He) as Q1. pose proof (get_by_ext_at ds Nd 0 i d Hd) as Q2.
      rewrite E in Q1. rewrite Q1 in Q2. injection Q2; lia. }
    destruct O2 as [(O2 & O3)|(w & (O2 & O3) & O4)].
    + left. split; auto. intros w ([E|E] & Q); [congruence|apply (O3 w); split; auto].
    + right. exists w. split; auto. split; [right; auto|auto].
Qed.
Lemma two_after_skip ds tlvs flag j old o ext v : 
  (match zget ds j with Some d => d_nodef d = true \/ d_ext d <> ext | None => True end) ->
  two_after ds tlvs flag j old o -> two_after ds ((ext, v) :: tlvs) flag j old o.
Proof.
  intros C O. unfold two_after in *. destruct (zget ds j) as [d|]; auto. destruct (d_nodef d); auto.
  destruct C as [?|C]; [discriminate|]. destruct O as [(H1 & H2)|(w & (H1 & H2) & H3)].
  - left. split; auto. intros w ([E|E] & Q); [congruence|]. apply (H2 w). split; auto.
  - right. exists w. split; auto. split; auto. right; auto.
Qed.

Lemma twohop_tlvs_ok ds : zlen ds <= 4 -> NoDup (map d_ext ds) -> forall tlvs td, zlen td = 4 ->
  exists td', twohop_tlvs ds tlvs td = Some td' /\ zlen td' = 4 /\
  (forall j x, zget td j = Some x -> exists a b, zget td' j = Some (mkTD a b (t_last x)) /\
     two_after ds tlvs INCOMING_NEIGH j (t_in x) a /\ two_after ds tlvs OUTGOING_NEIGH j (t_out x) b).
Proof.
  intros Ld Nd. induction tlvs as [|[ext v] tlvs IH]; intros td L; cbn [twohop_tlvs].
  - exists td. split; [auto|]. split; [auto|]. intros j x H. exists (t_in x), (t_out x). split; [rewrite H; now destruct x|].
    unfold two_after. destruct (zget ds j) as [d|]; auto. destruct (d_nodef d); auto.
    split; left; (split; [auto|intros w ([] & _)]).
  - destruct (get_by_ext 0 ds ext) as [i|] eqn:G.
    + destruct (get_by_ext_some _ _ _ _ G) as (d & Hd & <-). replace (i - 0) with i in Hd by lia.
      pose proof (zget_bound _ _ _ Hd) as Bi. rewrite Hd.
      destruct (d_nodef d) eqn:ND.
      * destruct (IH td L) as (td' & H1 & H2 & H3). exists td'. split; [auto|]. split; [auto|].
        intros j x Hx. destruct (H3 j x Hx) as (a & b & A1 & A2 & A3). exists a, b. split; auto.
        assert (match zget ds j with Some e => d_nodef e = true \/ d_ext e <> d_ext d | None => True end) as C.
        { destruct (zget ds j) as [e|] eqn:He; auto. destruct (Z.eq_dec (d_ext e) (d_ext d)) as [E|]; auto.
          pose proof (get_by_ext_at ds Nd 0 j e He) as Q. rewrite E, G in Q. injection Q as Q. replace (0 + j) with j in Q by lia.
          subst. left. congruence. }
        split; apply two_after_skip; auto.
      * destruct (twohop_tlv_ok i v td ltac:(lia) L) as (td1 & A1 & A2 & A3). rewrite A1.
        destruct (IH td1 A2) as (td' & H1 & H2 & H3). exists td'. split; [auto|]. split; [auto|].
        intros j x Hx. destruct (H3 j _ (A3 j x Hx)) as (a & b & B1 & B2 & B3). exists a, b.
        split; [rewrite B1; destruct (j =? i); reflexivity|].
        split; (apply (two_after_step ds tlvs _ j _ _ _ v i d Nd Hd eq_refl ND));
          destruct (Z.eqb_spec j i); cbn [t_in t_out andb] in *; auto.
    + destruct (IH td L) as (td' & H1 & H2 & H3). exists td'. split; [auto|]. split; [auto|].
      intros j x Hx. destruct (H3 j x Hx) as (a & b & A1 & A2 & A3). exists a, b. split; auto.
      assert (match zget ds j with Some e => d_nodef e = true \/ d_ext e <> ext | None => True end) as C.
      { destruct (zget ds j) as [e|] eqn:He; auto. right. intros E. subst ext.
        rewrite (get_by_ext_at ds Nd 0 j e He) in G. discriminate. }
      split; apply two_after_skip; auto.
Qed.

Lemma reset_2hop_ok : forall ds i td, 0 <= i -> i + zlen ds <= zlen td ->
  exists td', reset_2hop i ds td = Some td' /\ zlen td' = zlen td /\
  forall j x, zget td j = Some x -> exists y, zget td' j = Some y /\ t_last y = t_last x /\
    (match zget ds (j - i) with
     | Some d => if d_nodef d then y = x else t_in y = METRIC_INFINITE /\ t_out y = METRIC_INFINITE
     | None => y = x
     end).
Proof.
  induction ds as [|d ds IH]; intros i td Hi HL; cbn [reset_2hop].
  - exists td. split; [auto|]. split; [auto|]. intros j x H. exists x. split; [auto|]. split; [auto|].
    destruct (zget [] (j - i)) eqn:E; auto. apply zget_bound in E. change (zlen (@nil dom)) with 0 in E. lia.
  - rewrite zlen_cons in *. pose proof (zlen_nonneg ds). destruct (zget_Some td i ltac:(lia)) as (x & Hx). rewrite Hx.
    destruct (zset_some td i (mkTD METRIC_INFINITE METRIC_INFINITE (t_last x)) ltac:(lia)) as (td1 & S1). rewrite S1.
    pose proof (zset_len _ _ _ _ S1) as L1.
    assert (exists td2, (if d_nodef d then Some td else Some td1) = Some td2 /\ zlen td2 = zlen td /\
      forall j y, zget td j = Some y -> zget td2 j = Some (if (j =? i) && negb (d_nodef d) then mkTD METRIC_INFINITE METRIC_INFINITE (t_last y) else y)) as (td2 & E2 & L2 & P2).
    { destruct (d_nodef d).
      - exists td. split; [auto|]. split; [auto|]. intros j y Hy. rewrite andb_false_r. auto.
      - exists td1. split; [auto|]. split; [auto|]. intros j y Hy. rewrite andb_true_r, (zget_zset _ _ _ _ _ S1).
        destruct (Z.eqb_spec j i) as [->|]; auto. assert (y = x) by congruence. now subst. }
    rewrite E2. destruct (IH (i + 1) td2 ltac:(lia) ltac:(lia)) as (td' & H1 & H2 & H3). exists td'. split; [auto|]. split; [lia|].
    intros j y Hy. destruct (H3 j _ (P2 j y Hy)) as (z & Z1 & Z2 & Z3). exists z. split; auto.
    destruct (Z.eqb_spec j i) as [->|Hj].
    + replace (i - i) with 0 by lia. change (zget (d :: ds) 0) with (Some d).
      replace (i - (i + 1)) with (-1) in Z3 by lia. change (zget ds (-1)) with (@None dom) in Z3. cbn [andb] in *.
      destruct (d_nodef d); cbn [negb] in *; subst z; cbn; auto.
    + cbn [andb] in *. split; auto. destruct (Z_lt_le_dec j i) as [Lt|Ge].
      * destruct (zget (d :: ds) (j - i)) eqn:E; [apply zget_bound in E; lia|].
        destruct (zget ds (j - (i + 1))) eqn:E'; [apply zget_bound in E'; lia|auto].
      * rewrite zget_cons1 by lia. replace (j - i - 1) with (j - (i + 1)) by lia. auto.
Qed.

Lemma twohop_received ds tlvs td : zlen ds <= 4 -> NoDup (map d_ext ds) -> zlen td = 4 ->
  exists td', process_2hopdata ds tlvs td = Some td' /\ zlen td' = 4 /\
  forall j d, zget ds j = Some d -> d_nodef d = false -> forall ms vs min mout,
    zlen ms = 4 -> Forall (fun m => 0 <= m) ms -> write_metrics ms = Some vs -> carries tlvs (d_ext d) vs ->
    zget ms 2 = Some min -> zget ms 3 = Some mout ->
    exists x, zget td' j = Some x /\ received min (t_in x) /\ received mout (t_out x).
Proof.
  intros Ld Nd L. unfold process_2hopdata.
  destruct (reset_2hop_ok ds 0 td ltac:(lia) ltac:(lia)) as (td1 & R1 & R2 & R3). rewrite R1.
  destruct (twohop_tlvs_ok ds Ld Nd tlvs td1 ltac:(lia)) as (td' & T1 & T2 & T3). exists td'. split; [auto|]. split; [auto|].
  intros j d Hd ND ms vs min mout Lm F W C H2 H3. pose proof (zget_bound _ _ _ Hd) as Bj.
  destruct (zget_Some td j ltac:(lia)) as (x & Hx). destruct (R3 j x Hx) as (y & Y1 & Y2 & Y3).
  replace (j - 0) with j in Y3 by lia. rewrite Hd, ND in Y3. destruct Y3 as (Y3 & Y4).
  destruct (T3 j y Y1) as (a & b & A1 & A2 & A3). rewrite Y3 in A2. rewrite Y4 in A3.
  exists (mkTD a b (t_last y)). split; [auto|]. cbn [t_in t_out].
  destruct (write_metrics_ok ms Lm F) as (vs' & W1 & W2). assert (vs' = vs) by congruence. subst vs'.
  assert (forall k m o flag, zget ms k = Some m -> flag_of k = Some flag -> two_after ds tlvs flag j METRIC_INFINITE o -> received m o) as G.
  { intros k m o flag Hm Hf O. destruct (W2 k m flag Hm Hf) as (W3 & W4). unfold two_after in O. rewrite Hd, ND in O. unfold received.
    destruct O as [(-> & O)|(v & O1 & ->)].
    - right. split; auto. intros Hr. destruct (W3 Hr) as (v & V1 & V2). apply (O v). apply (carries_flag _ _ _ _ v C). auto.
    - left. apply (carries_flag _ _ _ _ v C) in O1. destruct O1 as (O1 & O2).
      destruct (W4 v O1 O2) as (R & code & B & E). split; auto. eauto. }
  split; [eapply (G 2); eauto; reflexivity|eapply (G 3); eauto; reflexivity].
Qed.
