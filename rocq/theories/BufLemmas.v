(** Lemmas about buffer copies and list access by [Z] index. *)
From Verif Require Import Base BitsModel BitsSpec BitsProofs.

Lemma zget_ext {A} (a b : list A) : zlen a = zlen b -> (forall i, 0 <= i < zlen a -> zget a i = zget b i) -> a = b.
Proof.
  unfold zlen. revert b; induction a as [|x a IH]; intros [|y b]; cbn [length]; try lia; auto.
  intros L H. f_equal.
  - specialize (H 0). unfold zget in H. cbn in H. assert (Some x = Some y) by (apply H; lia). congruence.
  - apply IH; [lia|]. intros i Hi. specialize (H (i + 1)). unfold zget in *.
    destruct (Z.ltb_spec (i + 1) 0); [lia|]. destruct (Z.ltb_spec i 0); [lia|].
    replace (Z.to_nat (i + 1)) with (S (Z.to_nat i)) in H by lia. cbn [nth_error] in H. apply H; lia.
Qed.

Lemma zget_None {A} (l : list A) i : zget l i = None <-> i < 0 \/ zlen l <= i.
Proof.
  unfold zget, zlen. destruct (Z.ltb_spec i 0); [split; auto; lia|].
  rewrite nth_error_None. lia.
Qed.

Lemma zset_Some {A} (l : list A) i x : 0 <= i < zlen l -> exists l', zset l i x = Some l'.
Proof.
  intros H. unfold zset. destruct (Z.leb_spec 0 i), (Z.ltb_spec i (zlen l)); try lia. cbn [andb]. eauto.
Qed.
Lemma zset_bound {A} (l l' : list A) i x : zset l i x = Some l' -> 0 <= i < zlen l.
Proof. unfold zset. destruct (Z.leb_spec 0 i), (Z.ltb_spec i (zlen l)); try discriminate. lia. Qed.

Lemma zlen_app {A} (a b : list A) : zlen (a ++ b) = zlen a + zlen b.
Proof. unfold zlen. rewrite app_length. lia. Qed.
Lemma zlen_cons {A} (x : A) l : zlen (x :: l) = zlen l + 1.
Proof. unfold zlen. cbn [length]. lia. Qed.
Lemma zlen_nil {A} : zlen (@nil A) = 0.
Proof. reflexivity. Qed.
Lemma zlen_repeat {A} (x : A) n : zlen (repeat x n) = Z.of_nat n.
Proof. unfold zlen. now rewrite repeat_length. Qed.

Lemma zget_app {A} (a b : list A) i : zget (a ++ b) i = if i <? zlen a then zget a i else zget b (i - zlen a).
Proof.
  unfold zget, zlen. destruct (Z.ltb_spec i (Z.of_nat (length a))).
  - destruct (Z.ltb_spec i 0); auto. rewrite nth_error_app1 by lia. reflexivity.
  - destruct (Z.ltb_spec i 0); [lia|]. destruct (Z.ltb_spec (i - Z.of_nat (length a)) 0); [lia|].
    rewrite nth_error_app2 by lia. f_equal. lia.
Qed.
Lemma zget_repeat {A} (x : A) n i : zget (repeat x n) i = if (0 <=? i) && (i <? Z.of_nat n) then Some x else None.
Proof.
  destruct (Z.leb_spec 0 i), (Z.ltb_spec i (Z.of_nat n)); cbn [andb];
    try (apply zget_None; rewrite zlen_repeat; lia).
  unfold zget. destruct (Z.ltb_spec i 0); [lia|].
  apply nth_error_repeat. lia.
Qed.
Lemma nth_error_firstn {A} (l : list A) n k : nth_error (firstn n l) k = if (k <? n)%nat then nth_error l k else None.
Proof.
  revert l k; induction n as [|n IH]; intros l k.
  - now destruct k.
  - destruct l as [|x l], k as [|k]; cbn [firstn nth_error]; auto.
    + now destruct (_ <? _)%nat.
    + apply IH.
Qed.
Lemma nth_error_skipn {A} (l : list A) n k : nth_error (skipn n l) k = nth_error l (n + k)%nat.
Proof.
  revert l; induction n as [|n IH]; intros [|x l]; cbn; auto. now destruct k.
Qed.
Lemma zget_firstn {A} (l : list A) n i : zget (firstn n l) i = if i <? Z.of_nat n then zget l i else None.
Proof.
  unfold zget. rewrite nth_error_firstn. destruct (Z.ltb_spec i 0), (Z.ltb_spec i (Z.of_nat n)),
    (Nat.ltb_spec (Z.to_nat i) n); auto; lia.
Qed.
Lemma zget_skipn {A} (l : list A) n i : 0 <= i -> zget (skipn n l) i = zget l (Z.of_nat n + i).
Proof.
  intros. unfold zget. rewrite nth_error_skipn. destruct (Z.ltb_spec i 0), (Z.ltb_spec (Z.of_nat n + i) 0); try lia.
  f_equal. lia.
Qed.
Lemma zlen_firstn {A} (l : list A) n : Z.of_nat n <= zlen l -> zlen (firstn n l) = Z.of_nat n.
Proof. unfold zlen; intros. rewrite firstn_length. lia. Qed.
Lemma zlen_skipn {A} (l : list A) n : Z.of_nat n <= zlen l -> zlen (skipn n l) = zlen l - Z.of_nat n.
Proof. unfold zlen; intros. rewrite skipn_length. lia. Qed.

Lemma copy_out_Some l off n : 0 <= off -> off + Z.of_nat n <= zlen l ->
  exists r, copy_out l off n = Some r /\ zlen r = Z.of_nat n /\
            forall i, 0 <= i < Z.of_nat n -> zget r i = zget l (off + i).
Proof.
  revert off; induction n as [|n IH]; intros off H0 H1; cbn [copy_out].
  - exists []. repeat split; auto. intros; lia.
  - destruct (zget_Some l off ltac:(lia)) as [x Hx]. rewrite Hx.
    destruct (IH (off + 1) ltac:(lia) ltac:(lia)) as (r & -> & L & G).
    exists (x :: r). rewrite zlen_cons. repeat split; [lia|]. intros i Hi.
    destruct (Z.eq_dec i 0) as [->|].
    + rewrite Z.add_0_r, Hx. reflexivity.
    + replace (off + i) with (off + 1 + (i - 1)) by lia. rewrite <- G by lia.
      unfold zget. destruct (Z.ltb_spec i 0), (Z.ltb_spec (i - 1) 0); try lia.
      replace (Z.to_nat i) with (S (Z.to_nat (i - 1))) by lia. reflexivity.
Qed.

Lemma copy_out_bound l off n r : copy_out l off n = Some r ->
  (0 < n)%nat -> 0 <= off /\ off + Z.of_nat n <= zlen l.
Proof.
  revert off r; induction n as [|n IH]; intros off r; cbn [copy_out]; [lia|].
  destruct (zget l off) eqn:E; [|discriminate]. apply zget_bound in E.
  destruct (copy_out l (off + 1) n) eqn:E2; [|discriminate]. intros _ _.
  destruct n; [lia|]. apply IH in E2; lia.
Qed.

Lemma copy_out_firstn l n : Z.of_nat n <= zlen l -> copy_out l 0 n = Some (firstn n l).
Proof.
  intros H. destruct (copy_out_Some l 0 n ltac:(lia) ltac:(lia)) as (r & E & L & G).
  rewrite E. f_equal. apply zget_ext.
  - rewrite zlen_firstn; auto.
  - intros i Hi. rewrite G by lia. rewrite zget_firstn.
    destruct (Z.ltb_spec i (Z.of_nat n)); [reflexivity|lia].
Qed.

Lemma copy_in_Some src : forall buf off, 0 <= off -> off + zlen src <= zlen buf ->
  exists buf', copy_in buf off src = Some buf' /\ zlen buf' = zlen buf /\
    forall i, zget buf' i = if (off <=? i) && (i <? off + zlen src) then zget src (i - off) else zget buf i.
Proof.
  induction src as [|x src IH]; intros buf off H0 H1; cbn [copy_in].
  - exists buf. repeat split; auto. intros i. rewrite zlen_nil.
    destruct (Z.leb_spec off i), (Z.ltb_spec i (off + 0)); cbn; auto; lia.
  - rewrite zlen_cons in H1. pose proof (zlen_nonneg src).
    destruct (zset_Some buf off x ltac:(lia)) as [b1 E1]. rewrite E1.
    pose proof (zset_len _ _ _ _ E1) as L1.
    destruct (IH b1 (off + 1) ltac:(lia) ltac:(lia)) as (b2 & E2 & L2 & G2).
    exists b2. rewrite E2. repeat split; [lia|]. intros i. rewrite G2, (zget_zset _ _ _ i _ E1), zlen_cons.
    destruct (Z.leb_spec (off + 1) i), (Z.ltb_spec i (off + 1 + zlen src)),
      (Z.leb_spec off i), (Z.ltb_spec i (off + (zlen src + 1))), (Z.eqb_spec i off); cbn [andb]; try lia; auto.
    + unfold zget. destruct (Z.ltb_spec (i - (off + 1)) 0), (Z.ltb_spec (i - off) 0); try lia.
      replace (Z.to_nat (i - off)) with (S (Z.to_nat (i - (off + 1)))) by lia. reflexivity.
    + subst i. rewrite Z.sub_diag. reflexivity.
Qed.

Lemma copy_in_bound src : forall buf off buf', copy_in buf off src = Some buf' -> src <> [] ->
  0 <= off /\ off + zlen src <= zlen buf.
Proof.
  induction src as [|x src IH]; intros buf off buf'; cbn [copy_in]; [congruence|].
  destruct (zset buf off x) as [b1|] eqn:E; [|discriminate]. intros E2 _.
  pose proof (zset_bound _ _ _ _ E). pose proof (zset_len _ _ _ _ E). rewrite zlen_cons.
  destruct src as [|y src]; [unfold zlen in *; cbn [length]; lia|].
  apply IH in E2; [lia|discriminate].
Qed.

Lemma copy_in_Forall (P : Z -> Prop) src : forall buf off buf', Forall P buf -> Forall P src ->
  copy_in buf off src = Some buf' -> Forall P buf'.
Proof.
  induction src as [|x src IH]; intros buf off buf' Hb Hs; cbn [copy_in].
  - now intros [= <-].
  - destruct (zset buf off x) as [b1|] eqn:E; [|discriminate]. inversion Hs; subst.
    apply IH; auto. exact (Forall_zset P _ _ _ _ Hb H1 E).
Qed.

Lemma Forall_firstn {A} (P : A -> Prop) n l : Forall P l -> Forall P (firstn n l).
Proof. intros H. revert n. induction H; intros [|n]; cbn; constructor; auto. Qed.
Lemma Forall_skipn {A} (P : A -> Prop) n l : Forall P l -> Forall P (skipn n l).
Proof. intros H. revert n. induction H; intros [|n]; cbn; auto. Qed.
Lemma Forall_repeat {A} (P : A -> Prop) x n : P x -> Forall P (repeat x n).
Proof. intros. induction n; cbn; constructor; auto. Qed.

Lemma copy_out_Forall (P : Z -> Prop) l off n r : Forall P l -> copy_out l off n = Some r -> Forall P r.
Proof.
  intros H. revert off r; induction n as [|n IH]; intros off r; cbn [copy_out].
  - intros [= <-]. constructor.
  - destruct (zget l off) eqn:E; [|discriminate]. destruct (copy_out _ _ _) eqn:E2; [|discriminate].
    intros [= <-]. constructor; [exact (Forall_zget P _ _ _ H E)|eauto].
Qed.

(** ** Bits of byte strings *)
Lemma bit_at_eq_byte a b k : 
  (forall i, 8 * k <= i < 8 * k + 8 -> bit_at a i = bit_at b i) ->
  forall x y, zget a k = Some x -> zget b k = Some y -> is_u8 x -> is_u8 y -> x = y.
Proof.
  intros H x y Hx Hy Ux Uy. apply Z.bits_inj'. intros n Hn.
  destruct (Z.ltb_spec n 8).
  - specialize (H (8 * k + (7 - n)) ltac:(lia)). unfold bit_at in H.
    replace ((8 * k + (7 - n)) / 8) with k in H by (zdm; lia).
    replace ((8 * k + (7 - n)) mod 8) with (7 - n) in H by (zdm; lia).
    rewrite Hx, Hy in H. replace (7 - (7 - n)) with n in H by lia. exact H.
  - rewrite !byte_bits_high; auto; lia.
Qed.

Lemma bits_ext a b : zlen a = zlen b -> all_bytes a -> all_bytes b ->
  (forall i, 0 <= i < 8 * zlen a -> bit_at a i = bit_at b i) -> a = b.
Proof.
  intros L Ha Hb H. apply zget_ext; auto. intros i Hi.
  destruct (zget_Some a i ltac:(lia)) as [x Hx], (zget_Some b i ltac:(lia)) as [y Hy].
  rewrite Hx, Hy. f_equal. apply (bit_at_eq_byte a b i); auto.
  - intros; apply H; lia.
  - exact (Forall_zget _ _ _ _ Ha Hx).
  - exact (Forall_zget _ _ _ _ Hb Hy).
Qed.

Lemma bit_at_copy_in src buf off : 0 <= off -> off + zlen src <= zlen buf ->
  exists buf', copy_in buf off src = Some buf' /\ zlen buf' = zlen buf /\
    forall i, bit_at buf' i = if (8 * off <=? i) && (i <? 8 * (off + zlen src)) then bit_at src (i - 8 * off) else bit_at buf i.
Proof.
  intros H0 H1. destruct (copy_in_Some src buf off H0 H1) as (b & E & L & G).
  exists b. split; auto. split; auto. intros i. unfold bit_at. rewrite G.
  destruct (Z.leb_spec off (i / 8)), (Z.ltb_spec (i / 8) (off + zlen src)),
    (Z.leb_spec (8 * off) i), (Z.ltb_spec i (8 * (off + zlen src))); cbn [andb]; try (exfalso; zdm; lia); auto.
  replace ((i - 8 * off) / 8) with (i / 8 - off) by (zdm; lia).
  replace ((i - 8 * off) mod 8) with (i mod 8) by (zdm; lia). reflexivity.
Qed.

Lemma bit_at_copy_out l off n : 0 <= off -> off + Z.of_nat n <= zlen l ->
  exists r, copy_out l off n = Some r /\ zlen r = Z.of_nat n /\
    forall i, 0 <= i < 8 * Z.of_nat n -> bit_at r i = bit_at l (8 * off + i).
Proof.
  intros H0 H1. destruct (copy_out_Some l off n H0 H1) as (r & E & L & G).
  exists r. split; auto. split; auto. intros i Hi. unfold bit_at. rewrite G by (zdm; lia).
  replace ((8 * off + i) / 8) with (off + i / 8) by (zdm; lia).
  replace ((8 * off + i) mod 8) with (i mod 8) by (zdm; lia). reflexivity.
Qed.

Lemma u8_land x m : is_u8 x -> 0 <= m -> is_u8 (Z.land x m).
Proof.
  intros Ux Hm. unfold is_u8 in *. assert (0 <= Z.land x m) by (apply Z.land_nonneg; lia). split; auto.
  destruct (Z.eq_dec (Z.land x m) 0) as [->|N]; [lia|].
  change 256 with (2 ^ 8). apply Z.log2_lt_pow2; [lia|].
  pose proof (Z.log2_land x m ltac:(lia) ltac:(lia)).
  assert (Z.log2 x < 8); [|lia]. destruct (Z.eq_dec x 0) as [->|]; [cbn; lia|].
  apply Z.log2_lt_pow2; [lia|]. change (2 ^ 8) with 256. lia.
Qed.
Lemma u8_lor x y : is_u8 x -> is_u8 y -> is_u8 (Z.lor x y).
Proof.
  intros Ux Uy. unfold is_u8 in *. assert (0 <= Z.lor x y) by (apply Z.lor_nonneg; lia). split; auto.
  destruct (Z.eq_dec (Z.lor x y) 0) as [->|N]; [lia|].
  change 256 with (2 ^ 8). apply Z.log2_lt_pow2; [lia|]. rewrite Z.log2_lor by lia.
  assert (forall z, 0 <= z < 256 -> Z.log2 z < 8).
  { intros z Hz. destruct (Z.eq_dec z 0) as [->|]; [cbn; lia|].
    apply Z.log2_lt_pow2; [lia|]. change (2 ^ 8) with 256. lia. }
  apply Z.max_lub_lt; auto.
Qed.
