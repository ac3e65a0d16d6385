(** Proofs about the NHDP domain data. *)
From Verif Require Import Base CodecModel CodecSpec CodecProofs DomModel DomSpec.
From Coq Require Import Permutation.

(** * Nibbles *)
Lemma nib_sweep : forallb (fun a => forallb (fun b =>
    let v := Z.lor a (u8 (Z.shiftl (Z.land b WILL_MASK) WILL_SHIFT)) in
    (Z.land v WILL_MASK =? a) && (Z.shiftr v WILL_SHIFT =? b) && (Z.land b WILL_MASK =? b) &&
    (Z.lor 0 (Z.land b WILL_MASK) =? b) && (Z.shiftr b WILL_SHIFT =? 0))
    (zrange 0 16)) (zrange 0 16) = true.
Proof. vm_compute. reflexivity. Qed.
Lemma nib a b : 0 <= a <= 15 -> 0 <= b <= 15 ->
  let v := Z.lor a (u8 (Z.shiftl (Z.land b WILL_MASK) WILL_SHIFT)) in
  Z.land v WILL_MASK = a /\ Z.shiftr v WILL_SHIFT = b.
Proof.
  intros Ha Hb. pose proof (zsweep _ _ _ nib_sweep a ltac:(lia)) as H.
  pose proof (zsweep _ _ _ H b ltac:(lia)) as H1. cbv zeta in *.
  rewrite !andb_true_iff, !Z.eqb_eq in H1. tauto.
Qed.
Lemma nib1 b : 0 <= b <= 15 -> Z.land b WILL_MASK = b /\ Z.lor 0 (Z.land b WILL_MASK) = b /\ Z.shiftr b WILL_SHIFT = 0.
Proof.
  intros Hb. pose proof (zsweep _ _ _ nib_sweep 0 ltac:(lia)) as H.
  pose proof (zsweep _ _ _ H b ltac:(lia)) as H1. cbv zeta in *.
  rewrite !andb_true_iff, !Z.eqb_eq in H1. tauto.
Qed.

(** * Lists of at most four domains *)
Lemma short4 {A} (l : list A) : zlen l <= 4 ->
  l = [] \/ (exists a, l = [a]) \/ (exists a b, l = [a; b]) \/ (exists a b c, l = [a; b; c]) \/
  (exists a b c d, l = [a; b; c; d]).
Proof.
  unfold zlen. destruct l as [|a [|b [|c [|d [|e l]]]]]; cbn [length]; intros H; try lia.
  - auto.
  - right; left; eauto.
  - right; right; left; eauto.
  - right; right; right; left; eauto.
  - right; right; right; right; eauto.
Qed.
Lemma four {A} (l : list A) : zlen l = 4 -> exists a b c d, l = [a; b; c; d].
Proof.
  unfold zlen. destruct l as [|a [|b [|c [|d [|e l]]]]]; cbn [length]; intros H; try lia. eauto.
Qed.

Lemma get_by_ext_at ds : NoDup (map d_ext ds) -> forall p i d, zget ds i = Some d ->
  get_by_ext p ds (d_ext d) = Some (p + i).
Proof.
  induction ds as [|e ds IH]; intros N p i d H.
  - unfold zget in H. destruct (i <? 0); [discriminate|]. destruct (Z.to_nat i); discriminate.
  - cbn [map] in N. inversion N as [|? ? N1 N2]; subst. cbn [get_by_ext].
    pose proof (zget_bound _ _ _ H) as B.
    destruct (Z.eq_dec i 0) as [->|Hi].
    + cbn in H. injection H as ->. rewrite Z.eqb_refl. f_equal; lia.
    + assert (zget ds (i - 1) = Some d) as H'.
      { unfold zget in *. destruct (Z.ltb_spec i 0); [discriminate|]. destruct (Z.ltb_spec (i - 1) 0); [lia|].
        replace (Z.to_nat i) with (S (Z.to_nat (i - 1))) in H by lia. exact H. }
      destruct (Z.eqb_spec (d_ext e) (d_ext d)) as [E|E].
      * exfalso. apply N1. rewrite E. apply in_map.
        unfold zget in H'. destruct (_ <? _); [discriminate|]. eapply nth_error_In; eauto.
      * rewrite (IH N2 (p + 1) (i - 1) d H'). f_equal; lia.
Qed.
Lemma get_by_ext_none ds ext : forall p, ~ In ext (map d_ext ds) -> get_by_ext p ds ext = None.
Proof.
  induction ds as [|e ds IH]; intros p H; cbn [get_by_ext]; auto.
  cbn [map In] in H. destruct (Z.eqb_spec (d_ext e) ext); [tauto|]. apply IH. tauto.
Qed.
Lemma get_by_ext_some ds ext : forall p i, get_by_ext p ds ext = Some i ->
  exists d, zget ds (i - p) = Some d /\ d_ext d = ext.
Proof.
  induction ds as [|e ds IH]; intros p i; cbn [get_by_ext]; [discriminate|].
  destruct (Z.eqb_spec (d_ext e) ext).
  - intros [= ->]. exists e. replace (i - i) with 0 by lia. auto.
  - intros H. destruct (IH _ _ H) as (d & H1 & H2). exists d. split; auto.
    unfold zget in *. destruct (Z.ltb_spec (i - (p + 1)) 0); [discriminate|]. destruct (Z.ltb_spec (i - p) 0); [lia|].
    replace (Z.to_nat (i - p)) with (S (Z.to_nat (i - (p + 1)))) by lia. exact H1.
Qed.

(** * Willingness *)
Lemma tlv_value_ok b n : 0 <= n <= zlen b -> tlv_value (b, n) = Some (firstn (Z.to_nat n) b).
Proof. intros H. unfold tlv_value. cbn [fst snd]. destruct (Z.leb_spec n (zlen b)); [auto|lia]. Qed.

Ltac conc := cbn -[Z.lor Z.land Z.shiftl Z.shiftr u8 get_by_ext WILL_MASK WILL_SHIFT].

Lemma hello_tlvs_ok ds fw : doms_ok ds -> 0 <= fw <= 15 -> exists will,
  hello_tlvs ds fw = Some (if zlen ds =? 1 then None else Some (map d_ext ds), will) /\
  1 <= zlen will /\
  (exists b, zget will 0 = Some b /\ Z.land b WILL_MASK = fw) /\
  (forall i d, zget ds i = Some d -> exists b, zget will ((i + 1) / 2) = Some b /\
     (if Z.land i 1 =? 0 then Z.shiftr b WILL_SHIFT else Z.land b WILL_MASK) = d_will d) /\
  (forall i b, zlen ds <= i -> zget will ((i + 1) / 2) = Some b ->
     (if Z.land i 1 =? 0 then Z.shiftr b WILL_SHIFT else Z.land b WILL_MASK) = 0).
Proof.
  intros (HL & _ & F) Hf.
  assert (forall d, In d ds -> 0 <= d_will d <= 15) as W.
  { intros d Hd. rewrite Forall_forall in F. apply F, Hd. }
  assert (forall (l : bytes) i d, zget l i = Some d -> 0 <= i < zlen l) as GB by (intros; eapply zget_bound; eauto).
  destruct (short4 ds ltac:(lia)) as [-> | [(a & ->) | [(a & b & ->) | [(a & b & c & ->) | (a & b & c & d & ->)]]]].
  - unfold zlen in HL; cbn in HL; lia.
  - pose proof (W a ltac:(cbn; auto)) as Wa.
    pose proof (nib fw (d_will a) Hf Wa) as (N1 & N2). cbv zeta in N1, N2.
    exists [Z.lor fw (u8 (Z.shiftl (Z.land (d_will a) WILL_MASK) WILL_SHIFT))].
    split; [reflexivity|].
    split; [unfold zlen; cbn; lia|]. split; [eexists; split; [reflexivity|exact N1]|]. split.
    + intros i x H. pose proof (zget_bound _ _ _ H) as B. unfold zlen in B; cbn [length] in B.
      assert (i = 0) by lia. subst i. cbn in H. injection H as <-. eexists; split; [reflexivity|]. exact N2.
    + intros i x B H. unfold zlen in B; cbn [length] in B. apply zget_bound in H. unfold zlen in H; cbn [length] in H.
      exfalso. pose proof (Z.div_le_mono 2 (i + 1) 2 ltac:(lia) ltac:(lia)). change (2 / 2) with 1 in H0. lia.
  - pose proof (W a ltac:(cbn; auto)) as Wa. pose proof (W b ltac:(cbn; auto)) as Wb.
    pose proof (nib fw (d_will a) Hf Wa) as (N1 & N2). cbv zeta in N1, N2.
    pose proof (nib1 (d_will b) Wb) as (N3 & N4 & N5).
    exists [Z.lor fw (u8 (Z.shiftl (Z.land (d_will a) WILL_MASK) WILL_SHIFT)); Z.lor 0 (Z.land (d_will b) WILL_MASK)].
    split; [reflexivity|].
    split; [unfold zlen; cbn; lia|]. split; [eexists; split; [reflexivity|exact N1]|]. split.
    + intros i x H. pose proof (zget_bound _ _ _ H) as B. unfold zlen in B; cbn [length] in B.
      assert (i = 0 \/ i = 1) as [-> | ->] by lia; cbn in H; injection H as <-; eexists; (split; [reflexivity|]).
      * exact N2.
      * rewrite N4. exact N3.
    + intros i x B H. unfold zlen in B; cbn [length] in B. pose proof (zget_bound _ _ _ H) as B2.
      unfold zlen in B2; cbn [length] in B2.
      assert (i = 2) as ->.
      { destruct (Z.eq_dec i 2); auto. pose proof (Z.div_le_mono 4 (i + 1) 2 ltac:(lia) ltac:(lia)) as D.
        change (4 / 2) with 2 in D. lia. }
      change (Some (Z.lor 0 (Z.land (d_will b) WILL_MASK)) = Some x) in H. injection H as <-. change (Z.land 2 1 =? 0) with true. cbv iota. rewrite N3. exact N5.
  - pose proof (W a ltac:(cbn; auto)) as Wa. pose proof (W b ltac:(cbn; auto)) as Wb. pose proof (W c ltac:(cbn; auto)) as Wc.
    pose proof (nib fw (d_will a) Hf Wa) as (N1 & N2). cbv zeta in N1, N2.
    pose proof (nib1 (d_will b) Wb) as (N3 & N4 & N5).
    pose proof (nib (d_will b) (d_will c) Wb Wc) as (N6 & N7). cbv zeta in N6, N7.
    exists [Z.lor fw (u8 (Z.shiftl (Z.land (d_will a) WILL_MASK) WILL_SHIFT)); Z.lor (Z.lor 0 (Z.land (d_will b) WILL_MASK)) (u8 (Z.shiftl (Z.land (d_will c) WILL_MASK) WILL_SHIFT))].
    split; [reflexivity|].
    split; [unfold zlen; cbn; lia|]. split; [eexists; split; [reflexivity|exact N1]|]. split.
    + intros i x H. pose proof (zget_bound _ _ _ H) as B. unfold zlen in B; cbn [length] in B.
      assert (i = 0 \/ i = 1 \/ i = 2) as [-> | [-> | ->]] by lia; cbn in H; injection H as <-; eexists; (split; [reflexivity|]).
      * exact N2.
      * rewrite N4. exact N6.
      * rewrite N4. exact N7.
    + intros i x B H. unfold zlen in B; cbn [length] in B. pose proof (zget_bound _ _ _ H) as B2.
      unfold zlen in B2; cbn [length] in B2.
      pose proof (Z.div_le_mono 4 (i + 1) 2 ltac:(lia) ltac:(lia)) as D.
      change (4 / 2) with 2 in D. lia.
  - pose proof (W a ltac:(cbn; auto)) as Wa. pose proof (W b ltac:(cbn; auto)) as Wb. pose proof (W c ltac:(cbn; auto)) as Wc.
    pose proof (W d ltac:(cbn; auto)) as Wd.
    pose proof (nib fw (d_will a) Hf Wa) as (N1 & N2). cbv zeta in N1, N2.
    pose proof (nib1 (d_will b) Wb) as (N3 & N4 & N5).
    pose proof (nib1 (d_will d) Wd) as (N8 & N9 & N10).
    pose proof (nib (d_will b) (d_will c) Wb Wc) as (N6 & N7). cbv zeta in N6, N7.
    exists [Z.lor fw (u8 (Z.shiftl (Z.land (d_will a) WILL_MASK) WILL_SHIFT)); Z.lor (Z.lor 0 (Z.land (d_will b) WILL_MASK)) (u8 (Z.shiftl (Z.land (d_will c) WILL_MASK) WILL_SHIFT)); Z.lor 0 (Z.land (d_will d) WILL_MASK)].
    split; [reflexivity|].
    split; [unfold zlen; cbn; lia|]. split; [eexists; split; [reflexivity|exact N1]|]. split.
    + intros i x H. pose proof (zget_bound _ _ _ H) as B. unfold zlen in B; cbn [length] in B.
      assert (i = 0 \/ i = 1 \/ i = 2 \/ i = 3) as [-> | [-> | [-> | ->]]] by lia; cbn in H; injection H as <-;
        eexists; (split; [reflexivity|]).
      * exact N2.
      * rewrite N4. exact N6.
      * rewrite N4. exact N7.
      * rewrite N9. exact N8.
    + intros i x B H. unfold zlen in B; cbn [length] in B. pose proof (zget_bound _ _ _ H) as B2.
      unfold zlen in B2; cbn [length] in B2.
      assert (i = 4) as ->.
      { destruct (Z.eq_dec i 4); auto. pose proof (Z.div_le_mono 6 (i + 1) 2 ltac:(lia) ltac:(lia)) as D.
        change (6 / 2) with 3 in D. lia. }
      change (Some (Z.lor 0 (Z.land (d_will d) WILL_MASK)) = Some x) in H. injection H as <-. change (Z.land 4 1 =? 0) with true. cbv iota. rewrite N8. exact N10.
Qed.

Lemma process_types_ok dr ty : doms_ok dr ->
  process_types dr ty = Some (match ty with None => firstn 1 (map d_ext dr) | Some _ => map d_ext dr end).
Proof.
  intros (HL & _ & _).
  destruct (short4 dr ltac:(lia)) as [-> | [(a & ->) | [(a & b & ->) | [(a & b & c & ->) | (a & b & c & d & ->)]]]];
    [unfold zlen in HL; cbn in HL; lia|..]; destruct ty; reflexivity.
Qed.

Lemma zget_cons {A} (x : A) l k : 0 <= k -> zget (x :: l) (k + 1) = zget l k.
Proof.
  intros H. unfold zget. destruct (Z.ltb_spec (k + 1) 0); [lia|]. destruct (Z.ltb_spec k 0); [lia|].
  replace (Z.to_nat (k + 1)) with (S (Z.to_nat k)) by lia. reflexivity.
Qed.
Lemma zset_some {A} (l : list A) i x : 0 <= i < zlen l -> exists l', zset l i x = Some l'.
Proof.
  intros H. unfold zset. destruct (Z.leb_spec 0 i); [|lia]. destruct (Z.ltb_spec i (zlen l)); [|lia]. cbn. eauto.
Qed.
Lemma zlen_cons {A} (x : A) l : zlen (x :: l) = zlen l + 1.
Proof. unfold zlen; cbn [length]; lia. Qed.
Lemma zlen_map {A B} (f : A -> B) l : zlen (map f l) = zlen l.
Proof. unfold zlen. now rewrite map_length. Qed.
Lemma zget_map {A B} (f : A -> B) l i : zget (map f l) i = match zget l i with Some x => Some (f x) | None => None end.
Proof. unfold zget. destruct (i <? 0); auto. rewrite nth_error_map. now destruct (nth_error l (Z.to_nat i)). Qed.

(** the types are extensions of consecutive domains of the receiver *)
Definition at_doms (dr : list dom) (i : Z) (types : bytes) : Prop :=
  forall k t, zget types k = Some t -> exists d, zget dr (i + k) = Some d /\ d_ext d = t.
Lemma at_doms_cons dr i t types : at_doms dr i (t :: types) ->
  (exists d, zget dr i = Some d /\ d_ext d = t) /\ at_doms dr (i + 1) types.
Proof.
  intros H. split.
  - destruct (H 0 t eq_refl) as (d & H1 & H2). replace (i + 0) with i in H1 by lia. eauto.
  - intros k u Hk. pose proof (zget_bound _ _ _ Hk) as B.
    destruct (H (k + 1) u) as (d & H1 & H2); [rewrite zget_cons by lia; exact Hk|].
    replace (i + (k + 1)) with (i + 1 + k) in H1 by lia. eauto.
Qed.

Definition nibble (v : bytes) (j : Z) : option Z :=
  match zget v ((j + 1) / 2) with
  | Some b => Some (if Z.land j 1 =? 0 then Z.shiftr b WILL_SHIFT else Z.land b WILL_MASK)
  | None => None
  end.

Lemma proc_will_ok dr v : NoDup (map d_ext dr) -> forall types i tmp, 0 <= i -> at_doms dr i types ->
  zlen tmp = zlen dr -> exists tmp', proc_will_loop dr v i types tmp = Some tmp' /\ zlen tmp' = zlen dr /\
  forall j, zget tmp' j = if (i <=? j) && (j <? i + zlen types) then
                            match nibble v j with Some w => Some w | None => zget tmp j end
                          else zget tmp j.
Proof.
  intros N. induction types as [|t types IH]; intros i tmp Hi A L; cbn [proc_will_loop].
  - exists tmp. split; [auto|]. split; [auto|]. intros j. change (zlen []) with 0.
    destruct (Z.leb_spec i j), (Z.ltb_spec j (i + 0)); try lia; reflexivity.
  - destruct (at_doms_cons _ _ _ _ A) as ((d & Hd & <-) & A').
    pose proof (zget_bound _ _ _ Hd) as Bd.
    rewrite (get_by_ext_at dr N 0 i d Hd). replace (0 + i) with i by lia. cbv zeta.
    pose proof (zlen_nonneg types) as Ht. rewrite zlen_cons.
    destruct (Z.leb_spec (zlen v) ((i + 1) / 2)) as [B|B].
    + destruct (IH (i + 1) tmp ltac:(lia) A' L) as (tmp' & H1 & H2 & H3).
      exists tmp'. split; [auto|]. split; [auto|]. intros j. rewrite H3.
      destruct (Z.leb_spec i j), (Z.ltb_spec j (i + (zlen types + 1))), (Z.leb_spec (i + 1) j),
        (Z.ltb_spec j (i + 1 + zlen types)); try lia; cbn [andb]; auto.
      assert (j = i) as -> by lia. unfold nibble.
      destruct (zget v ((i + 1) / 2)) eqn:E; auto. apply zget_bound in E. lia.
    + assert (0 <= (i + 1) / 2) by (apply Z.div_pos; lia).
      destruct (zget_Some v ((i + 1) / 2) ltac:(lia)) as (b & Hb). rewrite Hb.
      destruct (zset_some tmp i (if Z.land i 1 =? 0 then Z.shiftr b WILL_SHIFT else Z.land b WILL_MASK) ltac:(lia)) as (tmp1 & S1).
      rewrite S1. pose proof (zset_len _ _ _ _ S1) as L1.
      destruct (IH (i + 1) tmp1 ltac:(lia) A' ltac:(lia)) as (tmp' & H1 & H2 & H3).
      exists tmp'. split; [auto|]. split; [auto|]. intros j. rewrite H3, (zget_zset _ _ _ j _ S1).
      destruct (Z.leb_spec i j), (Z.ltb_spec j (i + (zlen types + 1))), (Z.leb_spec (i + 1) j),
        (Z.ltb_spec j (i + 1 + zlen types)), (Z.eqb_spec j i); try lia; cbn [andb]; auto.
      subst j. unfold nibble. rewrite Hb. reflexivity.
Qed.

Lemma at_doms_map dr : at_doms dr 0 (map d_ext dr).
Proof.
  intros k t H. rewrite zget_map in H. replace (0 + k) with k by lia.
  destruct (zget dr k) as [d|]; [|discriminate]. injection H as <-. eauto.
Qed.
Lemma at_doms_first dr : at_doms dr 0 (firstn 1 (map d_ext dr)).
Proof.
  destruct dr as [|d dr]; intros k t H; cbn in H.
  - unfold zget in H. destruct (k <? 0); [discriminate|]. destruct (Z.to_nat k); discriminate.
  - pose proof (zget_bound _ _ _ H) as B. unfold zlen in B; cbn in B. assert (k = 0) as -> by lia.
    cbn in H. injection H as <-. exists d. auto.
Qed.

Lemma will_for_at ds d i : NoDup (map d_ext ds) -> zget ds i = Some d -> will_for ds (d_ext d) (d_will d).
Proof.
  intros _ H. left. exists d. split; auto. unfold zget in H. destruct (i <? 0); [discriminate|].
  eapply nth_error_In; eauto.
Qed.

(** position of a domain on both sides *)
Lemma agree_pos ds dr : agree ds dr -> doms_ok ds -> doms_ok dr -> forall i d, zget dr i = Some d ->
  (exists s, zget ds i = Some s /\ d_ext s = d_ext d) \/ (zlen ds <= i /\ ~ In (d_ext d) (map d_ext ds)).
Proof.
  intros (r & A) (_ & Ns & _) (_ & Nr & _) i d H.
  pose proof (zget_bound _ _ _ H) as B.
  destruct (Z_lt_le_dec i (zlen ds)) as [L|L].
  - left. destruct (zget_Some ds i ltac:(lia)) as (s & Hs). exists s. split; auto.
    assert (zget (map d_ext ds) i = Some (d_ext s)) as E1 by (rewrite zget_map, Hs; auto).
    assert (zget (map d_ext dr) i = Some (d_ext d)) as E2 by (rewrite zget_map, H; auto).
    assert (forall (a b : list Z) k x, zget a k = Some x -> zget (a ++ b) k = Some x) as AP.
    { intros a b k x Hk. pose proof (zget_bound _ _ _ Hk). unfold zget in *. destruct (k <? 0); [discriminate|].
      rewrite nth_error_app1; auto. unfold zlen in *. lia. }
    destruct A as [A|A].
    + apply (AP _ r) in E2. rewrite <- A in E2. congruence.
    + apply (AP _ r) in E1. rewrite <- A in E1. congruence.
  - right. split; auto. destruct A as [A|A].
    + exfalso. apply (f_equal zlen) in A. rewrite zlen_map in A.
      assert (zlen (map d_ext dr ++ r) = zlen dr + zlen r) as E by (unfold zlen; rewrite app_length, map_length; lia).
      pose proof (zlen_nonneg r). lia.
    + intros I. rewrite A in Nr.
      assert (In (d_ext d) r) as I2.
      { assert (zget (map d_ext dr) i = Some (d_ext d)) as E2 by (rewrite zget_map, H; auto).
        rewrite A in E2. unfold zget in E2. destruct (i <? 0); [discriminate|].
        rewrite nth_error_app2 in E2 by (rewrite map_length; unfold zlen in L; lia).
        eapply nth_error_In; eauto. }
      clear - Nr I I2. induction (map d_ext ds) as [|x l IH]; cbn in *; [tauto|].
      inversion Nr; subst. destruct I as [->|I]; auto. apply H1, in_or_app. auto.
Qed.

Lemma zget_const {A} (ds : list A) (w : Z) i x : zget ds i = Some x -> zget (map (fun _ => w) ds) i = Some w.
Proof. intros H. rewrite zget_map, H. reflexivity. Qed.

Lemma will_ok ds fw dr : doms_ok ds -> doms_ok dr -> 0 <= fw <= 15 -> agree ds dr ->
  exists ty will types tmp,
    hello_tlvs ds fw = Some (ty, will) /\ process_types dr ty = Some types /\
    process_will dr types (Some will) = Some (fw, tmp) /\ zlen tmp = zlen dr /\
    forall i d, zget dr i = Some d -> exists w, zget tmp i = Some w /\ will_for ds (d_ext d) w.
Proof.
  intros Os Or Hf A.
  destruct (hello_tlvs_ok ds fw Os Hf) as (will & H1 & HL & (b & Hb & Hbf) & H2 & H3).
  exists (if zlen ds =? 1 then None else Some (map d_ext ds)), will.
  set (types := match (if zlen ds =? 1 then None else Some (map d_ext ds)) with
                | None => firstn 1 (map d_ext dr) | Some _ => map d_ext dr end).
  assert (at_doms dr 0 types) as AT.
  { unfold types. destruct (zlen ds =? 1); [apply at_doms_first|apply at_doms_map]. }
  assert (NoDup (map d_ext dr)) as Nr by apply Or.
  destruct (proc_will_ok dr will Nr types 0 (map (fun _ => WILL_NEVER) dr) ltac:(lia) AT (zlen_map _ _))
    as (tmp & P1 & P2 & P3).
  exists types, tmp. split; [exact H1|]. split; [apply process_types_ok; auto|].
  split; [unfold process_will; rewrite Hb, P1, Hbf; auto|]. split; [auto|].
  intros i d Hd. pose proof (zget_bound _ _ _ Hd) as Bi. rewrite P3.
  rewrite (zget_const dr WILL_NEVER i d Hd).
  destruct (agree_pos _ _ A Os Or i d Hd) as [(s & Hs & Es)|(Bs & Nin)].
  - rewrite <- Es. pose proof (zget_bound _ _ _ Hs) as Bs.
    assert ((0 <=? i) && (i <? 0 + zlen types) = true) as ->.
    { unfold types. destruct (Z.eqb_spec (zlen ds) 1) as [E|E].
      - destruct dr as [|d0 dr]; [unfold zlen in Bi; cbn in Bi; lia|]. cbn [map firstn].
        change (zlen [d_ext d0]) with 1. destruct (Z.leb_spec 0 i), (Z.ltb_spec i (0 + 1)); auto; lia.
      - rewrite zlen_map. destruct (Z.leb_spec 0 i), (Z.ltb_spec i (0 + zlen dr)); auto; lia. }
    destruct (H2 i s Hs) as (bb & G1 & G2). unfold nibble. rewrite G1. eexists. split; [reflexivity|].
    rewrite G2. eapply will_for_at; eauto. apply Os.
  - exists 0. split; [|right; auto].
    destruct (_ && _); [|reflexivity]. unfold nibble.
    destruct (zget will ((i + 1) / 2)) as [bb|] eqn:G; [|reflexivity].
    f_equal. eapply H3; eauto.
Qed.

(** storing the willingness *)
Lemma each_dom_ok (f : Z -> dom -> ndata -> option ndata) : forall ds i nd, 0 <= i -> i + zlen ds <= zlen nd ->
  (forall k d x, zget ds k = Some d -> zget nd (i + k) = Some x -> exists y, f (i + k) d x = Some y) ->
  exists nd', each_dom f i ds nd = Some nd' /\ zlen nd' = zlen nd /\
    (forall j, (j < i \/ i + zlen ds <= j) -> zget nd' j = zget nd j) /\
    (forall k d x, zget ds k = Some d -> zget nd (i + k) = Some x -> zget nd' (i + k) = f (i + k) d x).
Proof.
  induction ds as [|d ds IH]; intros i nd Hi HL HF; cbn [each_dom].
  - exists nd. split; [auto|]. split; [auto|]. split; [auto|].
    intros k d x H. unfold zget in H. destruct (k <? 0); [discriminate|]. destruct (Z.to_nat k); discriminate.
  - rewrite zlen_cons in *. pose proof (zlen_nonneg ds) as Hn.
    destruct (zget_Some nd i ltac:(lia)) as (x & Hx). rewrite Hx.
    destruct (HF 0 d x eq_refl) as (y & Hy); [replace (i + 0) with i by lia; auto|].
    replace (i + 0) with i in Hy by lia. rewrite Hy.
    destruct (zset_some nd i y ltac:(lia)) as (nd1 & S1). rewrite S1.
    pose proof (zset_len _ _ _ _ S1) as L1.
    destruct (IH (i + 1) nd1 ltac:(lia) ltac:(lia)) as (nd' & H1 & H2 & H3 & H4).
    { intros k e z Hk Hz. pose proof (zget_bound _ _ _ Hk) as Bk. rewrite (zget_zset _ _ _ _ _ S1) in Hz.
      destruct (Z.eqb_spec (i + 1 + k) i); [lia|].
      replace (i + 1 + k) with (i + (k + 1)) in * by lia. apply (HF (k + 1) e z); auto. rewrite zget_cons by lia. auto. }
    exists nd'. split; [auto|]. split; [lia|]. split.
    + intros j Hj. rewrite H3 by lia. rewrite (zget_zset _ _ _ _ _ S1). destruct (Z.eqb_spec j i); [lia|auto].
    + intros k e z Hk Hz. pose proof (zget_bound _ _ _ Hk) as Bk.
      destruct (Z.eq_dec k 0) as [->|Hk0].
      * replace (i + 0) with i in * by lia. rewrite H3 by lia. rewrite (zget_zset _ _ _ _ _ S1), Z.eqb_refl.
        cbn in Hk. injection Hk as <-. assert (z = x) by congruence. subst z. auto.
      * replace (i + k) with (i + 1 + (k - 1)) in * by lia. apply H4.
        -- rewrite <- (zget_cons d) by lia. replace (k - 1 + 1) with k by lia. auto.
        -- rewrite (zget_zset _ _ _ _ _ S1). destruct (Z.eqb_spec (i + 1 + (k - 1)) i); [lia|auto].
Qed.

Lemma store_will_ok ds ftmp tmp l nd : zlen ds <= zlen nd -> zlen tmp = zlen ds ->
  exists nd', store_will ds ftmp tmp l nd = Some (set_fwill ftmp l, nd') /\ zlen nd' = zlen nd /\
  (forall j, zlen ds <= j -> zget nd' j = zget nd j) /\
  (forall i x, zget nd i = Some x -> i < zlen ds -> exists w, zget tmp i = Some w /\ zget nd' i = Some (set_nwill w x)).
Proof.
  intros HL Ht. unfold store_will.
  destruct (each_dom_ok (fun i _ x => do w <- zget tmp i ; Some (set_nwill w x)) ds 0 nd ltac:(lia) ltac:(lia)) as (nd' & H1 & H2 & H3 & H4).
  { intros k d x Hk Hx. apply zget_bound in Hk. destruct (zget_Some tmp (0 + k) ltac:(lia)) as (w & ->). eauto. }
  exists nd'. rewrite H1. split; [auto|]. split; [auto|]. split; [intros j Hj; apply H3; lia|].
  intros i x Hx Hi. pose proof (zget_bound _ _ _ Hx) as Bx.
  destruct (zget_Some ds i ltac:(lia)) as (d & Hd). destruct (zget_Some tmp i ltac:(lia)) as (w & Hw).
  exists w. split; auto. specialize (H4 i d x Hd). replace (0 + i) with i in H4 by lia. rewrite H4 by auto. now rewrite Hw.
Qed.

(** * MPR flags *)
Lemma hello_mpr_ok ds nd l : doms_ok ds -> zlen nd = 4 -> exists b,
  hello_mpr ds nd l = Some (Some [b]) /\
  negb (Z.land b MPR_FLOODING =? 0) = k_nfmpr l /\
  (forall i, 0 <= i < 4 -> negb (Z.land b (Z.shiftl 1 (Z.land (i + 1) 7)) =? 0) =
     match zget ds i, zget nd i with Some _, Some x => n_nmpr x | _, _ => false end).
Proof.
  intros (HL & _ & _) L4.
  destruct (four nd L4) as (x0 & x1 & x2 & x3 & ->).
  destruct (short4 ds ltac:(lia)) as [-> | [(a & ->) | [(a & b & ->) | [(a & b & c & ->) | (a & b & c & d & ->)]]]];
    [unfold zlen in HL; cbn in HL; lia|..];
    destruct x0 as [? ? ? ? ? ? f0], x1 as [? ? ? ? ? ? f1], x2 as [? ? ? ? ? ? f2], x3 as [? ? ? ? ? ? f3], l as [? ? ? g ? ?];
    destruct f0, f1, f2, f3, g;
    (eexists; split; [vm_compute; reflexivity|]; split; [reflexivity|];
     intros i Hi; assert (i = 0 \/ i = 1 \/ i = 2 \/ i = 3) as [-> | [-> | [-> | ->]]] by lia; reflexivity).
Qed.

Lemma proc_mpr_ok dr v : NoDup (map d_ext dr) -> forall types i nd, 0 <= i -> at_doms dr i types ->
  zlen dr <= zlen nd -> exists nd', proc_mpr_loop dr v i types nd = Some nd' /\ zlen nd' = zlen nd /\
  forall j, zget nd' j = if (i <=? j) && (j <? i + zlen types) && (Z.shiftr (j + 1) 3 <? zlen v) then
                            match zget v (Z.shiftr (j + 1) 3), zget nd j with
                            | Some b, Some x => Some (set_lmpr (negb (Z.land b (Z.shiftl 1 (Z.land (j + 1) 7)) =? 0)) x)
                            | _, _ => None end
                          else zget nd j.
Proof.
  intros N. induction types as [|t types IH]; intros i nd Hi A L; cbn [proc_mpr_loop].
  - exists nd. split; [auto|]. split; [auto|]. intros j. change (zlen []) with 0.
    destruct (Z.leb_spec i j), (Z.ltb_spec j (i + 0)); try lia; reflexivity.
  - destruct (at_doms_cons _ _ _ _ A) as ((d & Hd & <-) & A').
    pose proof (zget_bound _ _ _ Hd) as Bd.
    rewrite (get_by_ext_at dr N 0 i d Hd). replace (0 + i) with i by lia. cbv zeta.
    pose proof (zlen_nonneg types) as Ht. rewrite zlen_cons.
    destruct (Z.leb_spec (zlen v) (Z.shiftr (i + 1) 3)) as [B|B].
    + destruct (IH (i + 1) nd ltac:(lia) A' L) as (nd' & H1 & H2 & H3).
      exists nd'. split; [auto|]. split; [auto|]. intros j. rewrite H3.
      destruct (Z.leb_spec i j), (Z.ltb_spec j (i + (zlen types + 1))), (Z.leb_spec (i + 1) j),
        (Z.ltb_spec j (i + 1 + zlen types)); try lia; cbn [andb]; auto.
      assert (j = i) as -> by lia. destruct (Z.ltb_spec (Z.shiftr (i + 1) 3) (zlen v)); [lia|auto].
    + assert (0 <= Z.shiftr (i + 1) 3) by (apply Z.shiftr_nonneg; lia).
      destruct (zget_Some v (Z.shiftr (i + 1) 3) ltac:(lia)) as (b & Hb). rewrite Hb.
      destruct (zget_Some nd i ltac:(lia)) as (x & Hx). rewrite Hx.
      destruct (zset_some nd i (set_lmpr (negb (Z.land b (Z.shiftl 1 (Z.land (i + 1) 7)) =? 0)) x) ltac:(lia)) as (nd1 & S1).
      rewrite S1. pose proof (zset_len _ _ _ _ S1) as L1.
      destruct (IH (i + 1) nd1 ltac:(lia) A' ltac:(lia)) as (nd' & H1 & H2 & H3).
      exists nd'. split; [auto|]. split; [lia|]. intros j. rewrite H3, (zget_zset _ _ _ j _ S1).
      destruct (Z.leb_spec i j), (Z.ltb_spec j (i + (zlen types + 1))), (Z.leb_spec (i + 1) j),
        (Z.ltb_spec j (i + 1 + zlen types)), (Z.eqb_spec j i); try lia; cbn [andb]; auto.
      subst j. rewrite Hb, Hx. destruct (Z.ltb_spec (Z.shiftr (i + 1) 3) (zlen v)); [auto|lia].
Qed.

(** the TLV that the sender puts in and the receiver takes out *)
Lemma mpr_flags_ok ds snd_nd sl dr rl rnd : doms_ok ds -> doms_ok dr -> agree ds dr ->
  zlen snd_nd = 4 -> zlen rnd = 4 ->
  exists v, hello_mpr ds snd_nd sl = Some (Some v) /\ exists rnd',
    process_mpr_flags dr (match (if zlen ds =? 1 then None else Some (map d_ext ds)) with
                          | None => firstn 1 (map d_ext dr) | Some _ => map d_ext dr end) (Some v) rl rnd
    = Some (set_lfmpr (k_nfmpr sl) rl, rnd') /\ zlen rnd' = 4 /\
    (forall i d, zget dr i = Some d -> exists x y, zget rnd i = Some x /\ zget rnd' i = Some y /\
       y = set_lmpr (n_lmpr y) x /\ (n_lmpr y = true <-> selected_for ds snd_nd (d_ext d))) /\
    (forall j, zlen dr <= j -> zget rnd' j = zget rnd j).
Proof.
  intros Os Or A Ls Lr.
  destruct (hello_mpr_ok ds snd_nd sl Os Ls) as (b & H1 & H2 & H3).
  exists [b]. split; auto. unfold process_mpr_flags.
  destruct (each_dom_ok (fun _ _ x => Some (set_lmpr false x)) dr 0 rnd) as (nd0 & E1 & E2 & E3 & E4);
    [lia|destruct Or as ((?&?)&_); lia|eauto|].
  rewrite E1. change (zget [b] 0) with (Some b). cbv iota beta.
  set (types := match (if zlen ds =? 1 then None else Some (map d_ext ds)) with
                | None => firstn 1 (map d_ext dr) | Some _ => map d_ext dr end).
  assert (at_doms dr 0 types) as AT.
  { unfold types. destruct (zlen ds =? 1); [apply at_doms_first|apply at_doms_map]. }
  assert (NoDup (map d_ext dr)) as Nr by apply Or.
  assert (zlen dr <= 4) as Ld by apply Or.
  destruct (proc_mpr_ok dr [b] Nr types 0 nd0 ltac:(lia) AT ltac:(lia)) as (nd1 & P1 & P2 & P3).
  rewrite P1, H2. exists nd1. split; [auto|]. split; [lia|]. split.
  - intros i d Hd. pose proof (zget_bound _ _ _ Hd) as Bi.
    destruct (zget_Some rnd i ltac:(lia)) as (x & Hx).
    pose proof (E4 i d x Hd) as E4'. replace (0 + i) with i in E4' by lia. specialize (E4' Hx).
    assert (Z.shiftr (i + 1) 3 = 0) as SH.
    { assert (i = 0 \/ i = 1 \/ i = 2 \/ i = 3) as [-> | [-> | [-> | ->]]] by lia; reflexivity. }
    pose proof (P3 i) as P. rewrite SH, E4' in P. change (zget [b] 0) with (Some b) in P. cbv iota beta in P.
    change (0 <? zlen [b]) with true in P. rewrite andb_true_r in P.
    assert (selected_for ds snd_nd (d_ext d) <-> exists s y, zget ds i = Some s /\ d_ext s = d_ext d /\ zget snd_nd i = Some y /\ n_nmpr y = true) as SEL.
    { split.
      - intros (j & s & y & Q1 & Q2 & Q3 & Q4).
        destruct (agree_pos _ _ A Os Or i d Hd) as [(s' & Hs & Es)|(Bs & Nin)].
        + assert (j = i) as ->.
          { pose proof (get_by_ext_at ds (proj1 (proj2 Os)) 0 j s Q1) as G1.
            pose proof (get_by_ext_at ds (proj1 (proj2 Os)) 0 i s' Hs) as G2.
            rewrite Q2 in G1. rewrite Es in G2. rewrite G1 in G2. injection G2; lia. }
          exists s, y. auto.
        + exfalso. apply Nin. rewrite <- Q2. apply in_map. unfold zget in Q1. destruct (j <? 0); [discriminate|].
          eapply nth_error_In; eauto.
      - intros (s & y & Q1 & Q2 & Q3 & Q4). exists i, s, y. auto. }
    exists x. rewrite P.
    specialize (H3 i ltac:(lia)).
    destruct ((0 <=? i) && (i <? 0 + zlen types)) eqn:R.
    + eexists. split; [auto|]. split; [reflexivity|]. split; [reflexivity|].
      change (n_lmpr (set_lmpr ?f ?y)) with f. rewrite H3, SEL.
      destruct (agree_pos _ _ A Os Or i d Hd) as [(s' & Hs & Es)|(Bs & Nin)].
      * rewrite Hs. destruct (zget_Some snd_nd i ltac:(lia)) as (y & Hy). rewrite Hy. split.
        -- intros Q. exists s', y. auto.
        -- intros (s & y' & Q1 & Q2 & Q3 & Q4). assert (y' = y) by congruence. subst. auto.
      * destruct (zget ds i) as [s|] eqn:Hs; [apply zget_bound in Hs; lia|]. split; [discriminate|].
        intros (s & y & Q1 & _). congruence.
    + eexists. split; [auto|]. split; [reflexivity|]. split; [reflexivity|]. split; [discriminate|]. intros Q. exfalso.
      apply SEL in Q. destruct Q as (s & y & Q1 & Q2 & _). apply zget_bound in Q1.
      assert ((0 <=? i) && (i <? 0 + zlen types) = true) as R'; [|congruence].
      unfold types. destruct (Z.eqb_spec (zlen ds) 1) as [E|E].
      * destruct dr as [|d0 dr]; [unfold zlen in Bi; cbn in Bi; lia|]. cbn [map firstn].
        change (zlen [d_ext d0]) with 1. destruct (Z.leb_spec 0 i), (Z.ltb_spec i (0 + 1)); auto; lia.
      * rewrite zlen_map. destruct (Z.leb_spec 0 i), (Z.ltb_spec i (0 + zlen dr)); auto; lia.
  - intros j Hj. rewrite P3.
    assert ((0 <=? j) && (j <? 0 + zlen types) = false) as ->; [|cbn [andb]; apply E3; lia].
    assert (zlen types <= zlen dr).
    { unfold types. destruct (zlen ds =? 1); [|rewrite zlen_map; lia]. destruct dr; [unfold zlen; cbn; lia|].
      cbn [map firstn]. unfold zlen; cbn [length]; lia. }
    destruct (Z.leb_spec 0 j), (Z.ltb_spec j (0 + zlen types)); auto; lia.
Qed.

(** ** Is this node an MPR? *)
Lemma any_lmpr_ok nbs : Forall (fun n => zlen (nb_data n) = 4) nbs -> forall ds i, 0 <= i -> i + zlen ds <= 4 ->
  exists b, any_lmpr i ds nbs = Some b /\
  (b = true <-> exists k n x, i <= k < i + zlen ds /\ In n nbs /\ zget (nb_data n) k = Some x /\ n_lmpr x = true).
Proof.
  intros F. induction ds as [|d ds IH]; intros i Hi HL.
  - exists false. split; [reflexivity|]. split; [discriminate|]. intros (k & n & x & B & _).
    change (zlen []) with 0 in B. lia.
  - cbn [any_lmpr]. rewrite zlen_cons in *. pose proof (zlen_nonneg ds) as Hn.
    destruct (IH (i + 1) ltac:(lia) ltac:(lia)) as (b & H1 & H2). rewrite H1.
    assert (forall l, Forall (fun n => zlen (nb_data n) = 4) l ->
      exists b', (fix go (l : list nb) : option bool :=
        match l with
        | [] => Some b
        | n :: l' => do x <- zget (nb_data n) i ; if n_lmpr x then Some true else go l'
        end) l = Some b' /\
      (b' = true <-> b = true \/ exists n x, In n l /\ zget (nb_data n) i = Some x /\ n_lmpr x = true)) as G.
    { clear - Hi HL Hn. induction l as [|n l IHl]; intros Fl.
      - exists b. split; [auto|]. split; [auto|]. intros [?|(n & x & [] & _)]; auto.
      - inversion Fl as [|? ? L4 Fl']; subst. destruct (zget_Some (nb_data n) i ltac:(lia)) as (x & Hx). rewrite Hx.
        destruct (n_lmpr x) eqn:E.
        + exists true. split; auto. split; auto. intros _. right. exists n, x. cbn; auto.
        + destruct (IHl Fl') as (b' & G1 & G2). exists b'. split; auto. rewrite G2. split.
          * intros [?|(m & y & I & R)]; auto. right. exists m, y. cbn; auto.
          * intros [?|(m & y & [->|I] & R1 & R2)]; auto.
            -- congruence.
            -- right. exists m, y. auto. }
    destruct (G nbs F) as (b' & G1 & G2). exists b'. split; [exact G1|]. rewrite G2, H2. split.
    + intros [(k & n & x & B & R)|(n & x & I & R)].
      * exists k, n, x. split; [lia|auto].
      * exists i, n, x. split; [lia|auto].
    + intros (k & n & x & B & I & R1 & R2). destruct (Z.eq_dec k i) as [->|].
      * right. eauto.
      * left. exists k, n, x. split; [lia|auto].
Qed.
