From Verif Require Import Base BitsModel BitsSpec BitsProofs BufLemmas StrBase NetaddrModel NetaddrSpec.

Lemma na_wf_zlen a : na_wf a -> zlen (na_addr a) = 16.
Proof. intros (H & _). unfold zlen. lia. Qed.

(** * Subnet test *)
Lemma str_eqb_bits a b n : all_bytes a -> all_bytes b -> Z.of_nat n <= zlen a -> Z.of_nat n <= zlen b ->
  (str_eqb (firstn n a) (firstn n b) = true <-> agree (8 * Z.of_nat n) a b).
Proof.
  intros Ha Hb La Lb. rewrite str_eqb_eq. split.
  - intros E i Hi. unfold bit_at.
    assert (G : zget (firstn n a) (i / 8) = zget (firstn n b) (i / 8)) by now rewrite E.
    rewrite !zget_firstn in G. destruct (Z.ltb_spec (i / 8) (Z.of_nat n)); [|zdm; lia]. now rewrite G.
  - intros H. apply bits_ext; auto using Forall_firstn.
    + rewrite !zlen_firstn; auto.
    + now apply Forall_firstn.
    + now apply Forall_firstn.
    + rewrite zlen_firstn by auto. intros i Hi. specialize (H i Hi). unfold bit_at in *.
      rewrite !zget_firstn. destruct (Z.ltb_spec (i / 8) (Z.of_nat n)); [auto|reflexivity].
Qed.

Lemma shiftr_eq_bits x y k : is_u8 x -> is_u8 y -> 0 <= k <= 8 ->
  (Z.shiftr x k = Z.shiftr y k <-> forall n, k <= n < 8 -> Z.testbit x n = Z.testbit y n).
Proof.
  intros Ux Uy Hk. split.
  - intros E n Hn. assert (T : Z.testbit (Z.shiftr x k) (n - k) = Z.testbit (Z.shiftr y k) (n - k)) by now rewrite E.
    rewrite !Z.shiftr_spec in T by lia. now replace (n - k + k) with n in T by lia.
  - intros H. apply Z.bits_inj'. intros m Hm. rewrite !Z.shiftr_spec by lia.
    destruct (Z.ltb_spec (m + k) 8); [apply H; lia|]. rewrite !byte_bits_high; auto; lia.
Qed.

Lemma bin_in_subnet_spec net bin : na_wf net -> all_bytes bin -> 
  na_plen net <= 128 -> na_plen net <= 8 * zlen bin ->
  exists b, bin_in_subnet net bin = Some b /\ (b = true <-> agree (na_plen net) (na_addr net) bin).
Proof.
  intros W Hb Hp1 Hp2. pose proof (na_wf_zlen _ W) as L. destruct W as (_ & Ha & _ & Up). unfold is_u8 in Up.
  unfold bin_in_subnet. set (p := na_plen net) in *. set (k := p / 8).
  assert (Hk : 0 <= k /\ 8 * k <= p < 8 * k + 8) by (unfold k; zdm; lia).
  rewrite !copy_out_firstn by lia.
  pose proof (str_eqb_bits (na_addr net) bin (Z.to_nat k) Ha Hb ltac:(lia) ltac:(lia)) as SE.
  rewrite Z2Nat.id in SE by lia.
  destruct (str_eqb _ _) eqn:E; cbn [negb].
  - destruct (Z.eqb_spec (p mod 8) 0) as [M|M]; cbn [negb].
    + exists true. split; auto. split; auto. intros _. replace p with (8 * k) by (unfold k; zdm; lia). now apply SE.
    + assert (Hk2 : k < zlen bin /\ k < 16) by (unfold k in *; zdm; lia).
      destruct (zget_Some (na_addr net) k ltac:(lia)) as [x Hx], (zget_Some bin k ltac:(lia)) as [y Hy].
      rewrite Hx, Hy. eexists; split; [reflexivity|]. rewrite Z.eqb_eq.
      pose proof (Forall_zget _ _ _ _ Ha Hx) as Ux. pose proof (Forall_zget _ _ _ _ Hb Hy) as Uy.
      assert (Hm : 0 < p mod 8 < 8) by (zdm; lia).
      rewrite shiftr_eq_bits by (auto; lia). split.
      * intros H i Hi. destruct (Z.ltb_spec i (8 * k)); [apply SE; auto; lia|].
        unfold bit_at. replace (i / 8) with k by (zdm; lia). rewrite Hx, Hy. apply H. 
        assert (p = 8 * k + p mod 8) by (unfold k; zdm; lia). zdm; lia.
      * intros H n Hn. specialize (H (8 * k + (7 - n))). unfold bit_at in H.
        replace ((8 * k + (7 - n)) / 8) with k in H by (zdm; lia).
        replace ((8 * k + (7 - n)) mod 8) with (7 - n) in H by (zdm; lia). rewrite Hx, Hy in H.
        replace (7 - (7 - n)) with n in H by lia. apply H.
        assert (p = 8 * k + p mod 8) by (unfold k; zdm; lia). lia.
  - exists false. split; auto. split; [discriminate|]. intros H.
    assert (F : false = true) by (apply SE; intros i Hi; apply H; lia). discriminate.
Qed.

Lemma is_in_subnet_spec net a : na_wf net -> na_wf a -> na_plen net <= 128 ->
  exists b, is_in_subnet net a = Some b /\ (b = true <-> member net a).
Proof.
  intros Wn Wa Hp. unfold is_in_subnet, member. destruct (Z.eqb_spec (na_type net) (na_type a)) as [E|E]; cbn [negb].
  - destruct (bin_in_subnet_spec net (na_addr a)) as (b & -> & H); auto.
    + apply Wa.
    + rewrite (na_wf_zlen a Wa). lia.
    + exists b. split; auto. rewrite H. tauto.
  - exists false. split; auto. split; [discriminate|tauto].
Qed.

Lemma binary_is_in_subnet_spec net bin af : na_wf net -> all_bytes bin -> na_plen net <= maxprefix net ->
  exists b, binary_is_in_subnet net bin af = Some b /\
    (b = true <-> na_type net = af /\ maxprefix net = 8 * zlen bin /\ agree (na_plen net) (na_addr net) bin).
Proof.
  intros W Hb Hp. unfold binary_is_in_subnet.
  destruct (Z.eqb_spec (na_type net) af) as [E|E]; cbn [negb orb].
  - destruct (Z.eqb_spec (maxprefix net) (zlen bin * 8)) as [E2|E2]; cbn [negb orb].
    + destruct (bin_in_subnet_spec net bin) as (b & -> & H); auto.
      * assert (maxprefix net <= 128) by (unfold maxprefix, af_maxprefix; repeat destruct (_ =? _); lia). lia.
      * lia.
      * exists b. split; auto. rewrite H. intuition lia.
    + exists false. split; auto. split; [discriminate|lia].
  - exists false. split; auto. split; [discriminate|lia].
Qed.

Lemma containment net a : na_wf net -> na_wf a -> na_plen net <= na_plen a -> na_plen a <= 128 ->
  (member net a <-> na_type net = na_type a /\ forall h, na_wf h -> member a h -> member net h).
Proof.
  intros Wn Wa Hp Hp2. split.
  - intros [T A]. split; auto. intros h Wh [T2 A2]. split; [congruence|].
    intros i Hi. rewrite A by auto. apply A2. lia.
  - intros [T H]. apply (H a Wa). split; auto. intros i Hi. reflexivity.
Qed.

(** * Truncation *)
Lemma trunc_mask_bits r m : 0 <= r < 8 -> zget trunc_mask r = Some m ->
  is_u8 m /\ forall n, 0 <= n < 8 -> Z.testbit m n = (8 - r <=? n).
Proof.
  intros Hr E. assert (C : forallb (fun r => match zget trunc_mask r with
    | Some m => (0 <=? m) && (m <? 256) && forallb (fun n => eqb (Z.testbit m n) (8 - r <=? n)) (zrange 0 8)
    | None => true end) (zrange 0 8) = true) by (vm_compute; reflexivity).
  apply zsweep with (x := r) in C; [|lia]. rewrite E in C.
  rewrite !andb_true_iff in C. destruct C as [[C1 C2] C3]. split; [unfold is_u8; lia|].
  intros n Hn. apply zsweep with (x := n) in C3; [|lia]. now apply eqb_prop.
Qed.

Lemma truncate_spec alias dst src : na_wf src -> na_wf dst -> na_plen src <= 128 ->
  exists r, truncate alias dst src = Some r /\ na_wf r /\
    na_type r = na_type src /\ na_plen r = na_plen src /\
    forall i, 0 <= i < 128 -> bit_at (na_addr r) i = (i <? na_plen src) && bit_at (na_addr src) i.
Proof.
  intros W Wd Hp. pose proof (na_wf_zlen _ W) as L. pose proof (na_wf_zlen _ Wd) as Ld.
  destruct W as (L0 & Ha & Ut & Up). destruct Wd as (_ & Hd & _). unfold truncate.
  set (p := na_plen src) in *. set (k := p / 8). pose proof Up as Up'. unfold is_u8 in Up.
  replace (Z.land p 7) with (p mod 8) by (change 7 with (Z.ones 3); rewrite Z.land_ones by lia; reflexivity).
  assert (Hk : 0 <= k /\ p = 8 * k + p mod 8 /\ 0 <= p mod 8 < 8) by (unfold k; zdm; lia).
  (* first copy *)
  assert (S1 : exists ad0, (if alias then Some (na_addr src)
         else match copy_out (na_addr src) 0 (Z.to_nat k) with
              | None => None
              | Some b => copy_in (na_addr dst) 0 b
              end) = Some ad0 /\ zlen ad0 = 16 /\ all_bytes ad0 /\
              forall i, 0 <= i < k -> zget ad0 i = zget (na_addr src) i).
  { destruct alias.
    - exists (na_addr src). repeat split; auto.
    - rewrite copy_out_firstn by lia.
      destruct (copy_in_Some (firstn (Z.to_nat k) (na_addr src)) (na_addr dst) 0) as (b' & E & L1 & G1); [lia| |].
      + rewrite zlen_firstn; lia.
      + exists b'. rewrite E. split; auto. split; [lia|]. split.
        * exact (copy_in_Forall _ _ _ _ _ Hd (Forall_firstn _ _ _ Ha) E).
        * intros i Hi. rewrite G1, zlen_firstn by lia.
          destruct (Z.leb_spec 0 i), (Z.ltb_spec i (0 + Z.of_nat (Z.to_nat k))); try lia. cbn [andb].
          rewrite zget_firstn. destruct (Z.ltb_spec (i - 0) (Z.of_nat (Z.to_nat k))); [|lia]. f_equal; lia. }
  destruct S1 as (ad0 & -> & L1 & B1 & G1).
  assert (S2 : exists ad1 bp, (if negb (p mod 8 =? 0) then
             match zget (na_addr src) k, zget trunc_mask (p mod 8) with
             | Some b, Some m =>
               match zset ad0 k (Z.land b m) with
               | None => None
               | Some ad => Some (ad, k + 1)
               end
             | _, _ => None
             end
           else Some (ad0, k)) = Some (ad1, bp) /\ zlen ad1 = 16 /\ all_bytes ad1 /\ p <= 8 * bp < p + 8 /\ 0 <= bp <= 16 /\
           forall i, 0 <= i < 8 * bp -> bit_at ad1 i = (i <? p) && bit_at (na_addr src) i).
  { destruct (Z.eqb_spec (p mod 8) 0) as [M|M]; cbn [negb].
    - exists ad0, k. do 5 (split; auto; try lia). intros i Hi. unfold bit_at.
      rewrite G1 by (zdm; lia). destruct (Z.ltb_spec i p); [reflexivity|lia].
    - destruct (zget_Some (na_addr src) k ltac:(lia)) as [x Hx]. rewrite Hx.
      destruct (zget_Some trunc_mask (p mod 8)) as [m Hm]; [change (zlen trunc_mask) with 8; lia|]. rewrite Hm.
      destruct (trunc_mask_bits (p mod 8) m ltac:(lia) Hm) as [Um Tm].
      destruct (zset_Some ad0 k (Z.land x m) ltac:(lia)) as [ad1 E]. rewrite E.
      exists ad1, (k + 1). split; auto. split; [now rewrite (zset_len _ _ _ _ E)|].
      pose proof (Forall_zget _ _ _ _ Ha Hx) as Ux.
      assert (Ul : is_u8 (Z.land x m)).
      { unfold is_u8 in *. split; [apply Z.land_nonneg; lia|].
        destruct (Z.eq_dec (Z.land x m) 0) as [->|N]; [lia|].
        assert (0 <= Z.land x m) by (apply Z.land_nonneg; lia).
        change 256 with (2 ^ 8). apply Z.log2_lt_pow2; [lia|].
        pose proof (Z.log2_land x m ltac:(lia) ltac:(lia)).
        assert (Z.log2 x < 8); [|lia]. destruct (Z.eq_dec x 0) as [->|]; [cbn; lia|].
        apply Z.log2_lt_pow2; [lia|]. change (2 ^ 8) with 256. lia. }
      split; [exact (Forall_zset _ _ _ _ _ B1 Ul E)|]. split; [lia|]. split; [lia|].
      intros i Hi. unfold bit_at. rewrite (zget_zset _ _ _ (i / 8) _ E).
      destruct (Z.eqb_spec (i / 8) k) as [Ei|Ei].
      + rewrite Ei, Hx, Z.land_spec, Tm by (zdm; lia).
        destruct (Z.ltb_spec i p), (Z.leb_spec (8 - p mod 8) (7 - i mod 8)); cbn [andb].
        * now rewrite andb_true_r.
        * exfalso. zdm; lia.
        * exfalso. zdm; lia.
        * now rewrite andb_false_r.
      + rewrite G1 by (zdm; lia). destruct (Z.ltb_spec i p); [reflexivity|]. exfalso. zdm; lia. }
  destruct S2 as (ad1 & bp & -> & L2 & B2 & Hbp & Hbp2 & G2).
  assert (S3 : exists ad2, (if bp <? 16 then copy_in ad1 bp (repeat 0 (Z.to_nat (16 - bp))) else Some ad1) = Some ad2 /\
     zlen ad2 = 16 /\ all_bytes ad2 /\ forall i, 0 <= i < 128 -> bit_at ad2 i = (i <? p) && bit_at (na_addr src) i).
  { destruct (Z.ltb_spec bp 16).
    - destruct (copy_in_Some (repeat 0 (Z.to_nat (16 - bp))) ad1 bp) as (b & E & L3 & G3); [lia|rewrite zlen_repeat; lia|].
      exists b. split; auto. split; [lia|]. split.
      + refine (copy_in_Forall _ _ _ _ _ B2 _ E). apply Forall_repeat. unfold is_u8; lia.
      + intros i Hi. unfold bit_at at 1. rewrite G3, zlen_repeat.
        destruct (Z.leb_spec bp (i / 8)), (Z.ltb_spec (i / 8) (bp + Z.of_nat (Z.to_nat (16 - bp)))); cbn [andb].
        * rewrite zget_repeat. destruct (Z.leb_spec 0 (i / 8 - bp)), (Z.ltb_spec (i / 8 - bp) (Z.of_nat (Z.to_nat (16 - bp)))); try (zdm; lia).
          cbn [andb]. rewrite Z.bits_0. destruct (Z.ltb_spec i p); [exfalso; zdm; lia|reflexivity].
        * exfalso. zdm; lia.
        * change (match zget ad1 (i / 8) with Some b0 => Z.testbit b0 (7 - i mod 8) | None => false end) with (bit_at ad1 i).
          apply G2. zdm; lia.
        * exfalso. zdm; lia.
    - exists ad1. split; auto. split; auto. split; auto. intros i Hi. apply G2. lia. }
  destruct S3 as (ad2 & -> & L3 & B3 & G3).
  eexists; split; [reflexivity|]. cbn. repeat split; auto.
  - unfold zlen in L3; cbn; lia.
  - apply Ut.
  - apply Ut.
  - apply Up.
  - apply Up.
Qed.

Lemma truncate_eq_iff a b d1 d2 : na_wf a -> na_wf b -> na_wf d1 -> na_wf d2 -> na_plen a <= 128 ->
  na_type a = na_type b -> na_plen a = na_plen b ->
  (truncate false d1 a = truncate false d2 b <-> is_in_subnet a b = Some true).
Proof.
  intros Wa Wb W1 W2 Hp T P.
  destruct (truncate_spec false d1 a Wa W1 Hp) as (ra & -> & Wra & Ta & Pa & Ba).
  destruct (truncate_spec false d2 b Wb W2 ltac:(lia)) as (rb & -> & Wrb & Tb & Pb & Bb).
  destruct (is_in_subnet_spec a b Wa Wb Hp) as (r & -> & H).
  pose proof (na_wf_zlen _ Wra). pose proof (na_wf_zlen _ Wrb).
  assert (forall x y : bool, Some x = Some y <-> x = y) as SI by (intros; split; congruence).
  rewrite SI, H. split.
  - intros [= E]. split; auto. intros i Hi. specialize (Ba i ltac:(lia)). specialize (Bb i ltac:(lia)).
    rewrite E in Ba. rewrite Ba in Bb. rewrite <- P in Bb.
    destruct (Z.ltb_spec i (na_plen a)); [exact Bb|lia].
  - intros [_ A]. f_equal. destruct ra as [aa ta pa], rb as [ab tb pb]. cbn in *. f_equal; try congruence.
    apply bits_ext; try lia; try apply Wra; try apply Wrb. intros i Hi.
    rewrite Ba, Bb, <- P by lia. destruct (Z.ltb_spec i (na_plen a)); [cbn; apply A; lia|reflexivity].
Qed.

Lemma truncate_idem alias1 alias2 d1 d2 a r : na_wf a -> na_wf d1 -> na_wf d2 -> na_plen a <= 128 ->
  truncate alias1 d1 a = Some r -> truncate alias2 d2 r = Some r.
Proof.
  intros Wa W1 W2 Hp. destruct (truncate_spec alias1 d1 a Wa W1 Hp) as (ra & -> & Wra & Ta & Pa & Ba).
  intros [= <-]. destruct (truncate_spec alias2 d2 ra Wra W2 ltac:(lia)) as (rb & -> & Wrb & Tb & Pb & Bb).
  f_equal. pose proof (na_wf_zlen _ Wra). pose proof (na_wf_zlen _ Wrb).
  destruct ra as [aa ta pa], rb as [ab tb pb]. cbn in *. f_equal; try congruence.
  apply bits_ext; [lia|apply Wrb|apply Wra|]. intros i Hi.
  rewrite Bb, Ba by lia. rewrite Pa. now destruct (_ <? _).
Qed.

(** * Host creation *)
Lemma maxprefix_cases a : maxprefix a = 0 \/ exists M, maxprefix a = 8 * M /\ 0 < M <= 16.
Proof.
  unfold maxprefix, af_maxprefix. repeat destruct (_ =? _); [right|right|right|right|left; reflexivity].
  - exists 4; lia. - exists 16; lia. - exists 6; lia. - exists 8; lia.
Qed.

Lemma mask_bits r n : 0 <= r < 8 -> 0 <= n < 8 ->
  Z.testbit (Z.shiftr 255 r) n = (n <? 8 - r) /\ Z.testbit (u8 (Z.lnot (Z.shiftr 255 r))) n = negb (n <? 8 - r).
Proof.
  intros Hr Hn. rewrite u8_bits by lia. rewrite Z.lnot_spec by lia.
  assert (E : Z.testbit (Z.shiftr 255 r) n = (n <? 8 - r)).
  { rewrite Z.shiftr_spec by lia. change 255 with (Z.ones 8). destruct (Z.ltb_spec n (8 - r)).
    - apply Z.ones_spec_low; lia. - apply Z.ones_spec_high; lia. }
  now rewrite E.
Qed.

Lemma create_host_spec net number : na_wf net -> maxprefix net <> 0 -> na_plen net <= maxprefix net ->
  all_bytes number ->
  exists h, create_host_bin net number = Some (0, h) /\ na_wf h /\
    na_type h = na_type net /\ na_plen h = maxprefix net /\
    forall i, 0 <= i < 128 -> bit_at (na_addr h) i =
      let j := i - (maxprefix net - 8 * zlen number) in
      if (na_plen net <=? i) && (i <? maxprefix net) && (0 <=? j) then bit_at number j
      else bit_at (na_addr net) i.
Proof.
  intros W Hm Hp Hn. pose proof (na_wf_zlen _ W) as L. destruct W as (L0 & Ha & Ut & Up).
  destruct (maxprefix_cases net) as [|(M & EM & HM)]; [contradiction|].
  unfold create_host_bin. set (mx := maxprefix net) in *. set (p := na_plen net) in *.
  unfold is_u8 in Up. pose proof (zlen_nonneg number) as Ln.
  assert (Um : is_u8 mx) by (unfold is_u8; lia).
  destruct (Z.eqb_spec mx 0); [lia|].
  destruct (Z.eqb_spec mx p) as [E1|E1]; cbn [orb].
  { eexists; split; [reflexivity|]. cbn. repeat split; auto; try apply Um; try apply Ut.
    intros i Hi. destruct (Z.leb_spec p i), (Z.ltb_spec i mx); cbn [andb]; auto; lia. }
  destruct (Z.eqb_spec (zlen number) 0) as [E2|E2].
  { eexists; split; [reflexivity|]. cbn. repeat split; auto; try apply Um; try apply Ut.
    intros i Hi. rewrite E2. destruct (Z.leb_spec p i), (Z.ltb_spec i mx), (Z.leb_spec 0 (i - (mx - 8 * 0))); cbn [andb]; auto; lia. }
  rewrite Z.quot_div_nonneg by lia.
  set (hpl := (mx - p + 7) / 8). assert (Hh : 8 * hpl - 8 < mx - p <= 8 * hpl) by (unfold hpl; zdm; lia).
  rewrite u8_id by (unfold is_u8; lia).
  replace (Z.land p 7) with (p mod 8) by (change 7 with (Z.ones 3); rewrite Z.land_ones by lia; reflexivity).
  assert (FIN : forall ad hi ni, zlen ad = 16 -> all_bytes ad -> 0 <= ni <= zlen number -> 0 <= hi -> hi + (zlen number - ni) = M ->
    exists h, match copy_out number ni (Z.to_nat (zlen number - ni)) with
      | None => None
      | Some bs =>
        match copy_in ad hi bs with
        | None => None
        | Some ad' => Some (0, {| na_addr := ad'; na_type := na_type net; na_plen := mx |})
        end
      end = Some (0, h) /\ na_wf h /\ na_type h = na_type net /\ na_plen h = mx /\
      forall i, 0 <= i < 128 -> bit_at (na_addr h) i = if (8 * hi <=? i) && (i <? mx) then bit_at number (i - 8 * hi + 8 * ni) else bit_at ad i).
  { intros ad hi ni La Hb Hni Hhi Hs.
    destruct (bit_at_copy_out number ni (Z.to_nat (zlen number - ni))) as (r & E & Lr & G); [lia|lia|]. rewrite E.
    destruct (bit_at_copy_in r ad hi) as (b & E3 & Lb & G3); [lia|lia|]. rewrite E3.
    eexists; split; [reflexivity|]. cbn. repeat split; auto; try apply Um; try apply Ut.
    - rewrite La in Lb. unfold zlen in Lb. clear - Lb. cbn. lia.
    - refine (copy_in_Forall _ _ _ _ _ Hb _ E3). exact (copy_out_Forall _ _ _ _ _ Hn E).
    - intros i Hi. rewrite G3, Lr. 
      destruct (Z.leb_spec (8 * hi) i), (Z.ltb_spec i (8 * (hi + Z.of_nat (Z.to_nat (zlen number - ni))))), (Z.ltb_spec i mx); cbn [andb]; try lia; auto.
      rewrite G by lia. f_equal. lia. }
  assert (EM8 : mx / 8 = M) by (rewrite EM, Z.mul_comm; apply Z.div_mul; lia).
  assert (Hhe : p mod 8 = 0 -> 8 * hpl = mx - p) by (unfold hpl; zdm; lia).
  clearbody hpl. rewrite EM8.
  destruct (Z.gtb_spec hpl (zlen number)) as [C|C].
  - destruct (FIN (na_addr net) (M - zlen number) 0) as (h & E & Wh & Th & Ph & Gh); auto; try lia.
    exists h. split; auto. do 3 (split; auto). intros i Hi. rewrite Gh by auto. cbv zeta.
    destruct (Z.leb_spec p i), (Z.ltb_spec i mx), (Z.leb_spec (8 * (M - zlen number)) i), (Z.leb_spec 0 (i - (mx - 8 * zlen number))); cbn [andb]; try lia; auto.
    f_equal; lia.
  - destruct (Z.eqb_spec (p mod 8) 0) as [R|R]; cbn [negb].
    + destruct (FIN (na_addr net) (p / 8) (zlen number - hpl)) as (h & E & Wh & Th & Ph & Gh); auto; try lia.
      all: try (specialize (Hhe R); zdm; lia).
      exists h. split; auto. do 3 (split; auto). intros i Hi. rewrite Gh by auto. cbv zeta.
      assert (8 * (p / 8) = p) by (zdm; lia). specialize (Hhe R).
      destruct (Z.leb_spec p i), (Z.ltb_spec i mx), (Z.leb_spec (8 * (p / 8)) i), (Z.leb_spec 0 (i - (mx - 8 * zlen number))); cbn [andb]; try lia; auto.
      f_equal; lia.
    + assert (Hpk : 0 <= p / 8 < M) by (zdm; lia).
      assert (Hhp : hpl = M - p / 8) by (zdm; lia).
      destruct (zget_Some (na_addr net) (p / 8) ltac:(lia)) as [x Hx]. rewrite Hx.
      destruct (zget_Some number (zlen number - hpl) ltac:(lia)) as [y Hy]. rewrite Hy.
      pose proof (Forall_zget _ _ _ _ Ha Hx) as Ux. pose proof (Forall_zget _ _ _ _ Hn Hy) as Uy.
      set (m := Z.shiftr 255 (p mod 8)).
      set (v := Z.lor (Z.land x (u8 (Z.lnot m))) (Z.land y m)).
      assert (Uv : is_u8 v).
      { apply u8_lor; apply u8_land; auto. - apply (u8_range (Z.lnot m)). - unfold m. apply Z.shiftr_nonneg. lia. }
      destruct (zset_Some (na_addr net) (p / 8) v ltac:(lia)) as [ad E]. rewrite E.
      destruct (FIN ad (p / 8 + 1) (zlen number - hpl + 1)) as (h & E3 & Wh & Th & Ph & Gh); try lia.
      { now rewrite (zset_len _ _ _ _ E). } { exact (Forall_zset _ _ _ _ _ Ha Uv E). }
      exists h. split; auto. do 3 (split; auto). intros i Hi. rewrite Gh by auto. cbv zeta.
      destruct (Z.ltb_spec i mx) as [I1|I1]; rewrite ?andb_false_r; cbn [andb].
      * destruct (Z.leb_spec (8 * (p / 8 + 1)) i); cbn [andb].
        -- destruct (Z.leb_spec p i), (Z.leb_spec 0 (i - (mx - 8 * zlen number))); cbn [andb]; try (exfalso; zdm; lia).
           f_equal; lia.
        -- unfold bit_at at 1. rewrite (zget_zset _ _ _ (i / 8) _ E).
           destruct (Z.eqb_spec (i / 8) (p / 8)) as [E4|E4].
           ++ unfold v. rewrite Z.lor_spec, !Z.land_spec.
              destruct (mask_bits (p mod 8) (7 - i mod 8)) as [M1 M2]; [zdm; lia|zdm; lia|]. fold m in M1, M2.
              rewrite M1, M2. destruct (Z.ltb_spec (7 - i mod 8) (8 - p mod 8)); cbn [negb]; rewrite ?andb_true_r, ?andb_false_r, ?orb_false_r; cbn [orb].
              ** destruct (Z.leb_spec p i), (Z.leb_spec 0 (i - (mx - 8 * zlen number))); cbn [andb]; try (exfalso; zdm; lia).
                 unfold bit_at. replace ((i - (mx - 8 * zlen number)) / 8) with (zlen number - hpl) by (zdm; lia).
                 rewrite Hy. f_equal. zdm; lia.
              ** destruct (Z.leb_spec p i); cbn [andb]; [exfalso; zdm; lia|]. unfold bit_at. now rewrite E4, Hx.
           ++ destruct (Z.leb_spec p i); cbn [andb]; [exfalso; zdm; lia|]. reflexivity.
      * unfold bit_at. rewrite (zget_zset _ _ _ (i / 8) _ E).
        destruct (Z.eqb_spec (i / 8) (p / 8)); [exfalso; zdm; lia|reflexivity].
Qed.

Lemma create_host_fail net number : maxprefix net = 0 ->
  exists h, create_host_bin net number = Some (-1, h).
Proof. intros E. unfold create_host_bin. rewrite E. cbn. eauto. Qed.

(** * Binary conversion *)
Lemma from_binary_roundtrip b t n p cap : all_bytes b -> is_u8 p ->
  family_bytes t = Some n -> t <> AF_UUID -> zlen b = n -> n <= cap ->
  forall ty, ty = t \/ ty = 0 ->
  exists a, from_binary_prefix b ty p = Some (0, a) /\ na_wf a /\ na_type a = t /\
    na_plen a = (if p =? 255 then 8 * n else p) /\ to_binary a cap = Some (0, b).
Proof.
  intros Hb Up Hf Hu Hl Hc ty Ht.
  assert (Hn : (t = AF_INET /\ n = 4 \/ t = AF_INET6 /\ n = 16 \/ t = AF_MAC48 /\ n = 6 \/ t = AF_EUI64 /\ n = 8)).
  { unfold family_bytes in Hf. destruct (Z.eqb_spec t AF_INET); [left; split; congruence|].
    destruct (Z.eqb_spec t AF_INET6); [right; left; split; congruence|].
    destruct (Z.eqb_spec t AF_MAC48); [right; right; left; split; congruence|].
    destruct (Z.eqb_spec t AF_EUI64); [right; right; right; split; congruence|].
    destruct (Z.eqb_spec t AF_UUID); [congruence|discriminate]. }
  destruct (copy_in_Some b zero16 0) as (ad & E & La & G); [lia|change (zlen zero16) with 16; lia|].
  change (zlen zero16) with 16 in La.
  assert (F : firstn (Z.to_nat n) b = b) by (apply firstn_all2; unfold zlen in *; lia).
  set (a := {| na_addr := ad; na_type := t; na_plen := if p =? 255 then 8 * n else p |}).
  exists a.
  assert (FB : from_binary_prefix b ty p = Some (0, a)).
  { unfold from_binary_prefix. rewrite Hl. unfold a.
    destruct Ht as [->| ->]; destruct Hn as [[-> ->]|[[-> ->]|[[-> ->]|[-> ->]]]];
      change AF_MAC48 with 47; change AF_EUI64 with 48; cbn -[firstn copy_in zero16 Z.to_nat];
      rewrite F, E; destruct (p =? 255); reflexivity. }
  split; auto. split; [|split; [reflexivity|split; [reflexivity|]]].
  - unfold a. repeat split; cbn.
    + unfold zlen in *; lia.
    + refine (copy_in_Forall _ _ _ _ _ _ Hb E). apply Forall_repeat. unfold is_u8; lia.
    + destruct Hn as [[-> _]|[[-> _]|[[-> _]|[-> _]]]]; vm_compute; discriminate.
    + destruct Hn as [[-> _]|[[-> _]|[[-> _]|[-> _]]]]; vm_compute; reflexivity.
    + destruct (p =? 255); unfold is_u8 in Up; lia.
    + destruct (p =? 255); unfold is_u8 in Up; lia.
  - unfold to_binary. assert (MX : Z.shiftr (maxprefix a) 3 = n).
    { unfold maxprefix, a. cbn [na_type]. destruct Hn as [[-> ->]|[[-> ->]|[[-> ->]|[-> ->]]]]; reflexivity. }
    rewrite MX. destruct (Z.eqb_spec n 0); [lia|]. destruct (Z.ltb_spec cap n); [lia|]. cbn [orb].
    rewrite copy_out_firstn by (cbn [na_addr a]; lia). cbn [na_addr a]. do 2 f_equal.
    apply zget_ext.
    + rewrite zlen_firstn by lia. lia.
    + rewrite zlen_firstn by lia. intros i Hi. rewrite zget_firstn, G.
      destruct (Z.ltb_spec i (Z.of_nat (Z.to_nat n))), (Z.leb_spec 0 i), (Z.ltb_spec i (0 + zlen b)); try lia. cbn [andb].
      f_equal; lia.
Qed.

Lemma from_binary_autodetect_rejects b p a rc : from_binary_prefix b 0 p = Some (rc, a) ->
  rc = 0 <-> (zlen b = 4 \/ zlen b = 6 \/ zlen b = 8 \/ zlen b = 16).
Proof.
  unfold from_binary_prefix. cbn [negb Z.eqb].
  destruct (Z.eqb_spec (zlen b) 4), (Z.eqb_spec (zlen b) 6), (Z.eqb_spec (zlen b) 8), (Z.eqb_spec (zlen b) 16);
    destruct (copy_in _ _ _); try discriminate; intros [= <- <-]; cbn; lia.
Qed.

Lemma from_binary_faults b ty p : from_binary_prefix b ty p = None <-> ty <> 0 /\ zlen b > 16.
Proof.
  unfold from_binary_prefix. pose proof (zlen_nonneg b).
  assert (K : forall n, 0 <= n <= zlen b -> copy_in zero16 0 (firstn (Z.to_nat n) b) = None <-> n > 16).
  { intros n Hn. assert (Ln : zlen (firstn (Z.to_nat n) b) = n) by (rewrite zlen_firstn; lia). split.
    - intros E. destruct (Z.gtb_spec n 16); [lia|].
      destruct (copy_in_Some (firstn (Z.to_nat n) b) zero16 0) as (x & E2 & _); [lia|change (zlen zero16) with 16; lia|congruence].
    - intros. destruct (copy_in _ _ _) eqn:E; auto. apply copy_in_bound in E; [change (zlen zero16) with 16 in E; lia|].
      intros N. rewrite N in Ln. change (zlen (@nil Z)) with 0 in Ln. lia. }
  assert (K2 : forall t n q, 0 <= n <= zlen b ->
     match copy_in zero16 0 (firstn (Z.to_nat n) b) with
     | None => None
     | Some ad => Some (if t =? AF_UNSPEC then -1 else 0, {| na_addr := ad; na_type := t; na_plen := q |})
     end = None <-> n > 16).
  { intros t n q Hn. rewrite <- (K n Hn). destruct (copy_in _ _ _); split; congruence. }
  destruct (Z.eqb_spec ty 0); cbn [negb].
  - destruct (Z.eqb_spec (zlen b) 4); [rewrite K2 by lia; lia|].
    destruct (Z.eqb_spec (zlen b) 6); [rewrite K2 by lia; lia|].
    destruct (Z.eqb_spec (zlen b) 8); [rewrite K2 by lia; lia|].
    destruct (Z.eqb_spec (zlen b) 16); [rewrite K2 by lia; lia|].
    rewrite K2 by (destruct (Z.gtb_spec (zlen b) 16); lia). destruct (Z.gtb_spec (zlen b) 16); lia.
  - rewrite K2 by lia. tauto.
Qed.

(** * Order *)
Lemma memcmp_refl a : memcmp a a = 0.
Proof. induction a; cbn; auto. now rewrite Z.eqb_refl. Qed.
Lemma memcmp_zero a b : length a = length b -> memcmp a b = 0 -> a = b.
Proof.
  revert b; induction a as [|x a IH]; intros [|y b]; cbn; try discriminate; auto.
  intros [= L]. destruct (Z.eqb_spec x y); [intros H; f_equal; auto|lia].
Qed.
Lemma memcmp_antisym a b : memcmp b a = - memcmp a b.
Proof.
  revert b; induction a as [|x a IH]; intros [|y b]; cbn; auto.
  rewrite Z.eqb_sym. destruct (x =? y); [apply IH|lia].
Qed.
Lemma memcmp_trans a b c : length a = length b -> length b = length c ->
  memcmp a b < 0 -> memcmp b c < 0 -> memcmp a c < 0.
Proof.
  revert b c; induction a as [|x a IH]; intros [|y b] [|z c]; cbn; try discriminate; auto.
  intros [= L1] [= L2].
  destruct (Z.eqb_spec x y), (Z.eqb_spec y z), (Z.eqb_spec x z); try lia; subst; eauto.
Qed.

Lemma na_raw_len a : na_wf a -> length (na_raw a) = 18%nat.
Proof. intros (L & _). unfold na_raw. rewrite app_length, L. reflexivity. Qed.
Lemma na_raw_inj a b : na_wf a -> na_wf b -> na_raw a = na_raw b -> a = b.
Proof.
  intros (L1 & _) (L2 & _). unfold na_raw. intros E. destruct a as [aa ta pa], b as [ab tb pb]; cbn in *.
  assert (aa = ab).
  { apply (f_equal (firstn 16)) in E. rewrite !firstn_app, L1, L2 in E.
    rewrite (firstn_all2 aa), (firstn_all2 ab) in E by lia.
    change (firstn (16 - 16)) with (@firstn Z 0) in E. cbn [firstn] in E. now rewrite !app_nil_r in E. }
  subst. apply app_inv_head in E. congruence.
Qed.

Lemma na_cmp_order a b c : na_wf a -> na_wf b -> na_wf c ->
  (na_cmp a b = 0 <-> a = b) /\ na_cmp b a = - na_cmp a b /\
  (na_cmp a b < 0 -> na_cmp b c < 0 -> na_cmp a c < 0).
Proof.
  intros Wa Wb Wc. unfold na_cmp. split; [split|split].
  - intros H. apply na_raw_inj; auto. apply memcmp_zero; auto. rewrite !na_raw_len by assumption; reflexivity.
  - intros ->. apply memcmp_refl.
  - apply memcmp_antisym.
  - apply memcmp_trans; rewrite !na_raw_len by assumption; reflexivity.
Qed.

(** * Netmasks *)

(** the answer depends on the mask only *)
Lemma create_prefix_loop_indep fuel len mx tr host host' mask pad pad' pl :
  length host = 16%nat -> length host' = 16%nat -> length pad = 16%nat -> length pad' = 16%nat -> 0 <= len ->
  match create_prefix_loop fuel len mx tr host mask pad pl, create_prefix_loop fuel len mx tr host' mask pad' pl with
  | Some (rc, _, r), Some (rc', _, r') => rc = rc' /\ r = r'
  | None, None => True
  | _, _ => False
  end.
Proof.
  intros Lh Lh'. revert len pad pad' pl. induction fuel as [|f IH]; intros len pad pad' pl Lp Lp' Hl; cbn [create_prefix_loop]; auto.
  destruct (negb _); auto.
  destruct (Z.ltb_spec len 16).
  - destruct (zget_Some host len) as [h Hh]; [unfold zlen; lia|].
    destruct (zget_Some host' len) as [h' Hh']; [unfold zlen; lia|]. rewrite Hh, Hh'.
    destruct (zget mask len) as [m|]; auto.
    assert (E : exists q q', (if tr then zset pad len (Z.land h m) else Some pad) = Some q /\
       (if tr then zset pad' len (Z.land h' m) else Some pad') = Some q' /\ length q = 16%nat /\ length q' = 16%nat).
    { destruct tr.
      - destruct (zset_Some pad len (Z.land h m)) as [q Hq]; [unfold zlen; lia|].
        destruct (zset_Some pad' len (Z.land h' m)) as [q' Hq']; [unfold zlen; lia|].
        exists q, q'. apply zset_len in Hq as X1. apply zset_len in Hq' as X2. unfold zlen in *. repeat split; auto; lia.
      - exists pad, pad'. auto. }
    destruct E as (q & q' & -> & -> & Lq & Lq').
    repeat (destruct (m =? _); [auto|]); auto.
    apply IH; auto; lia.
  - assert (N1 : zget host len = None) by (apply zget_None; unfold zlen; lia).
    assert (N2 : zget host' len = None) by (apply zget_None; unfold zlen; lia).
    now rewrite N1, N2.
Qed.

Lemma create_prefix_mask prefix host netmask tr mx p : na_wf prefix -> na_wf host ->
  na_type host = na_type netmask -> maxprefix host = mx -> mx <> 0 -> 0 <= p <= mx ->
  na_addr netmask = contiguous_mask p ->
  exists r, create_prefix prefix host netmask tr = Some (0, r) /\ na_type r = na_type host /\
    (na_plen r = p <-> p <= 8) /\ na_plen r <= p.
Proof.
  intros Wp Wh Ht Hm Hm0 Hp Ha. unfold create_prefix.
  destruct (Z.eqb_spec (na_type host) (na_type netmask)); [|contradiction]. cbn [negb orb].
  assert (Hin : In mx [32; 128; 48; 64]).
  { subst mx. revert Hm0. unfold maxprefix, af_maxprefix. repeat destruct (_ =? _); cbn; auto 6; congruence. }
  destruct (Z.eqb_spec (na_type host) AF_UNSPEC) as [E|_].
  { exfalso. apply Hm0. rewrite <- Hm. unfold maxprefix. rewrite E. reflexivity. }
  fold (maxprefix host). rewrite Hm, Ha.
  assert (C : forall mx tr, In mx [32; 128; 48; 64] -> forallb (fun p => match create_prefix_loop 17 0 (mx / 8) tr (repeat 0 16) (contiguous_mask p) (repeat 0 16) 0 with
      | Some (0, _, r) => eqb (r =? p) (p <=? 8) && (r <=? p) | _ => false end) (zrange 0 (Z.to_nat (mx + 1))) = true).
  { cbn [In]. intros m t [<-|[<-|[<-|[<-|[]]]]]; destruct t; vm_compute; reflexivity. }
  specialize (C mx tr Hin). apply zsweep with (x := p) in C; [|lia].
  pose proof (create_prefix_loop_indep 17 0 (mx / 8) tr (repeat 0 16) (na_addr host) (contiguous_mask p) (repeat 0 16)
    (if tr then na_addr prefix else na_addr host) 0 ltac:(auto) ltac:(apply Wh) ltac:(auto)
    ltac:(destruct tr; [apply Wp|apply Wh]) ltac:(lia)) as I.
  destruct (create_prefix_loop 17 0 (mx / 8) tr (repeat 0 16) _ _ _) as [[[rc ad] r]|]; [|discriminate].
  destruct (create_prefix_loop 17 0 (mx / 8) tr (na_addr host) _ _ _) as [[[rc' ad'] r']|]; [|destruct I].
  destruct I as [<- <-]. destruct rc; try discriminate. apply andb_prop in C as [C1 C2].
  eexists; split; [reflexivity|]. cbn [na_type na_plen]. split; auto.
  apply eqb_prop in C1. lia.
Qed.

Lemma subnetmask_off_by_one p : 1 <= p <= 32 ->
  subnetmask_len (4294967296 - 2 ^ (32 - p)) = p - 1.
Proof.
  intros Hp. assert (C : forallb (fun p => subnetmask_len (4294967296 - 2 ^ (32 - p)) =? p - 1) (zrange 1 32) = true) by (vm_compute; reflexivity).
  apply zsweep with (x := p) in C; [|lia]. now apply Z.eqb_eq.
Qed.

Lemma subnetmask_rejects_gen n v sh r : subnetmask_loop n v sh = r ->
  r = -1 \/ 0 <= r < Z.of_nat n /\ exists k, r = Z.of_nat n - 1 - k /\ 0 <= k /\ u32 v = u32 (sh * 2 ^ k).
Proof.
  revert sh; induction n as [|n IH]; intros sh; cbn [subnetmask_loop]; auto.
  destruct (Z.eqb_spec v sh).
  - intros <-. right. split; [lia|]. exists 0. split; [lia|]. split; [lia|]. subst. now rewrite Z.mul_1_r.
  - intros H. apply IH in H as [H|(H & k & Hk & Hk0 & E)]; auto. right. split; [lia|].
    exists (k + 1). split; [lia|]. split; [lia|]. rewrite E, Z.shiftl_mul_pow2 by lia. change (2 ^ 1) with 2.
    rewrite Z.pow_add_r by lia. change (2 ^ 1) with 2.
    unfold u32. rewrite Z.mul_mod_idemp_l by lia. f_equal. lia.
Qed.

Lemma subnetmask_rejects v : is_u32 v -> subnetmask_len v <> -1 ->
  exists p, 1 <= p <= 32 /\ v = 4294967296 - 2 ^ (32 - p).
Proof.
  intros Uv Hn. destruct (subnetmask_rejects_gen 32 v 0xffffffff _ eq_refl) as [H|(H & k & Hk & Hk0 & E)]; [contradiction|].
  exists (32 - k). split; [lia|]. rewrite u32_id in E by auto. rewrite E.
  replace (32 - (32 - k)) with k by lia.
  assert (C : forallb (fun k => u32 (0xffffffff * 2 ^ k) =? 4294967296 - 2 ^ k) (zrange 0 32) = true) by (vm_compute; reflexivity).
  apply zsweep with (x := k) in C; [|lia]. now apply Z.eqb_eq.
Qed.
