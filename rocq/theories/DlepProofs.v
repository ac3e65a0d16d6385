(** Proofs about the DLEP parser. *)
From Verif Require Import Base BufLemmas SplitLemmas DlepModel DlepSpec.

(** ** Bytes *)
Lemma n16_u16 n : is_u16 n -> all_bytes (n16 n).
Proof. intros H. unfold is_u16 in H. repeat constructor; unfold is_u8; zdm; lia. Qed.
Lemma be16_n16 n : is_u16 n -> be16 n = n16 n.
Proof. intros H. unfold be16, n16. rewrite (u16_id n) by auto. reflexivity. Qed.
Lemma n16_bytes a b : is_u8 a -> is_u8 b -> n16 (256 * a + b) = [a; b] /\ is_u16 (256 * a + b).
Proof. unfold is_u8, is_u16, n16. intros. split; [|lia]. f_equal; [|f_equal]; zdm; lia. Qed.
Lemma get16_at pre a b post i : i = zlen pre -> get16 (pre ++ a :: b :: post) i = Some (256 * a + b).
Proof.
  intros ->. unfold get16. rewrite (zget_split pre) by auto. change (pre ++ a :: b :: post) with (pre ++ [a] ++ b :: post). rewrite app_assoc.
  rewrite (zget_split (pre ++ [a])); [reflexivity|]. rewrite zlen_app, zlen_cons, zlen_nil. lia.
Qed.
Lemma zlen_wire_tlv p : zlen (wire_tlv p) = 4 + zlen (snd p).
Proof. unfold wire_tlv, n16. rewrite !zlen_app, !zlen_cons, !zlen_nil. lia. Qed.
Lemma wire_app l l' : wire (l ++ l') = wire l ++ wire l'.
Proof. unfold wire. apply flat_map_app. Qed.
Lemma wire_cons p l : wire (p :: l) = wire_tlv p ++ wire l.
Proof. reflexivity. Qed.
Lemma wire_snoc l p : wire (l ++ [p]) = wire l ++ wire_tlv p.
Proof. rewrite wire_app. cbn. now rewrite app_nil_r. Qed.
Lemma firstn_Z_app {A} (a b : list A) n : zlen a <= n -> firstn (Z.to_nat n) (a ++ b) = a ++ firstn (Z.to_nat (n - zlen a)) b.
Proof. intros H. rewrite firstn_app, firstn_all2; [|unfold zlen in *; lia]. f_equal. f_equal. unfold zlen in *. lia. Qed.
Lemma split_at {A} (l : list A) n : 0 <= n <= zlen l -> exists a b, l = a ++ b /\ zlen a = n.
Proof. intros H. exists (firstn (Z.to_nat n) l), (skipn (Z.to_nat n) l). rewrite firstn_skipn. split; auto. rewrite zlen_firstn; lia. Qed.
Lemma four {A} (l : list A) : 4 <= zlen l -> exists a b c d r, l = a :: b :: c :: d :: r.
Proof.
  intros H. destruct l as [|a [|b [|c [|d r]]]]; try (unfold zlen in H; cbn [length] in H; lia). eauto 6.
Qed.

(** ** Allowed TLVs *)
Definition key (t : tlv) := (t_id t, t_min t, t_max t).
Definition distinct (ts : list tlv) := NoDup (map t_id ts).
Lemma get_tlv_Some ts id t : get_tlv ts id = Some t -> In t ts /\ t_id t = id.
Proof. intros H. apply find_some in H. destruct H as (H & E). apply Z.eqb_eq in E. auto. Qed.
Lemma get_tlv_None ts id : get_tlv ts id = None -> forall t, In t ts -> t_id t <> id.
Proof. intros H t I E. pose proof (find_none _ _ H t I) as N. apply Z.eqb_neq in N. auto. Qed.
Lemma distinct_eq ts a b : distinct ts -> In a ts -> In b ts -> t_id a = t_id b -> a = b.
Proof.
  unfold distinct. induction ts as [|t ts IH]; cbn; [tauto|]. intros D. inversion D as [|? ? N D']; subst.
  intros [->|A] [->|B] E; auto.
  - destruct N. rewrite E. now apply in_map.
  - destruct N. rewrite <- E. now apply in_map.
Qed.
Lemma get_tlv_In ts t : distinct ts -> In t ts -> get_tlv ts (t_id t) = Some t.
Proof.
  intros D I. destruct (get_tlv ts (t_id t)) as [u|] eqn:E.
  - destruct (get_tlv_Some _ _ _ E) as (J & K). f_equal. apply (distinct_eq ts); auto.
  - destruct (get_tlv_None _ _ E t I eq_refl).
Qed.
Lemma fits_key ts ts0 p : map key ts = map key ts0 -> fits ts p -> fits ts0 p.
Proof.
  intros E (t & I & A & B). apply (in_map key) in I. rewrite E in I. apply in_map_iff in I. destruct I as (u & U & J).
  unfold key in U. injection U as U1 U2 U3. exists u. rewrite U1, U2, U3. auto.
Qed.
Lemma key_ids ts ts0 : map key ts = map key ts0 -> map t_id ts = map t_id ts0.
Proof. intros E. apply (f_equal (map (fun k : Z * Z * Z => fst (fst k)))) in E. now rewrite !map_map in E. Qed.
Lemma put_tlv_In ts t u : In u (put_tlv ts t) <-> (u = t /\ exists x, In x ts /\ t_id x = t_id t) \/ (In u ts /\ t_id u <> t_id t).
Proof.
  unfold put_tlv. rewrite in_map_iff. split.
  - intros (x & E & I). destruct (Z.eqb_spec (t_id x) (t_id t)); subst; [left; eauto|right; auto].
  - intros [(-> & x & I & E)|(I & N)].
    + exists x. rewrite E, Z.eqb_refl. auto.
    + exists u. destruct (Z.eqb_spec (t_id u) (t_id t)); [contradiction|auto].
Qed.
Lemma put_tlv_key ts t u : In u ts -> distinct ts -> key t = key u -> map key (put_tlv ts t) = map key ts.
Proof.
  intros I D E. unfold put_tlv. rewrite map_map. apply map_ext_in. intros x X. destruct (Z.eqb_spec (t_id x) (t_id t)) as [Q|Q]; auto.
  assert (x = u) as -> by (apply (distinct_eq ts); auto; unfold key in E; congruence). auto.
Qed.

(** ** Positions of the TLVs *)
Definition at_ (L : list (Z * bytes)) (k ty : Z) : Prop := exists v, zget L k = Some (ty, v).
Definition tlv_at (L : list (Z * bytes)) (t : tlv) : Prop :=
  (t_first t = -1 /\ t_last t = -1 /\ forall k, ~ at_ L k (t_id t)) \/
  (at_ L (t_first t) (t_id t) /\ at_ L (t_last t) (t_id t) /\ forall k, at_ L k (t_id t) -> t_first t <= k <= t_last t).
Definition next_ok (L : list (Z * bytes)) (k ty n : Z) : Prop :=
  (n = -1 /\ forall j, at_ L j ty -> j <= k) \/ (k < n /\ at_ L n ty /\ forall j, at_ L j ty -> j <= k \/ n <= j).
Definition val_at (L : list (Z * bytes)) (vs : list (option value)) : Prop :=
  forall k ty v, zget L k = Some (ty, v) ->
    exists w, zget vs k = Some (Some w) /\ v_index w = zlen (wire (firstn (Z.to_nat k) L)) + 4 /\ v_len w = zlen v /\ next_ok L k ty (v_next w).
Record pinv (ts : list tlv) (vs : list (option value)) (max : Z) (L : list (Z * bytes)) : Prop := {
  i_cap : zlen L <= max <= zlen vs;
  i_tlv : forall t, In t ts -> tlv_at L t;
  i_val : val_at L vs }.

Lemma at_bound L k ty : at_ L k ty -> 0 <= k < zlen L.
Proof. intros (v & H). eapply zget_bound; eauto. Qed.
Lemma at_snoc L p k ty : at_ (L ++ [p]) k ty <-> at_ L k ty \/ (k = zlen L /\ ty = fst p).
Proof.
  unfold at_. split.
  - intros (v & H). rewrite zget_app in H. destruct (Z.ltb_spec k (zlen L)); [left; eauto|right].
    assert (k - zlen L = 0) as Q by (apply zget_bound in H; unfold zlen in *; cbn in *; lia). rewrite Q in H. unfold zget in H. cbn in H. injection H as ->.
    split; [lia|reflexivity].
  - intros [(v & H)|(-> & ->)].
    + exists v. rewrite zget_app. pose proof (zget_bound _ _ _ H). destruct (Z.ltb_spec k (zlen L)); [auto|lia].
    + exists (snd p). rewrite (zget_split L [] p) by auto. now destruct p.
Qed.

Lemma resize_len vs n : zlen vs <= n -> 0 <= n -> zlen (resize vs n) = n.
Proof.
  intros H N. unfold resize. rewrite firstn_all2 by (unfold zlen in *; lia). rewrite zlen_app, zlen_repeat. unfold zlen in *. lia.
Qed.
Lemma resize_get vs n k v : zget vs k = Some v -> k < n -> zget (resize vs n) k = Some v.
Proof.
  intros H N. pose proof (zget_bound _ _ _ H) as B. unfold resize. rewrite zget_app.
  assert (zget (firstn (Z.to_nat n) vs) k = Some v) as Q.
  { rewrite zget_firstn. destruct (Z.ltb_spec k (Z.of_nat (Z.to_nat n))); [auto|lia]. }
  pose proof (zget_bound _ _ _ Q). destruct (Z.ltb_spec k (zlen (firstn (Z.to_nat n) vs))); [auto|lia].
Qed.
Lemma resize_len_ge vs n : 0 <= n -> n <= zlen (resize vs n).
Proof. intros N. unfold resize. rewrite zlen_app, zlen_repeat. unfold zlen. rewrite firstn_length. lia. Qed.

Lemma set_step L vs p idx w0 vs1 : val_at L vs -> zset vs (zlen L) (Some w0) = Some vs1 -> v_next w0 = -1 ->
  v_index w0 = zlen (wire L) + 4 -> v_len w0 = zlen (snd p) -> idx = zlen (wire L) ->
  (forall k, ~ at_ L k (fst p)) -> val_at (L ++ [p]) vs1.
Proof.
  intros V Z N I Ln _ No k ty v H. rewrite zget_app in H. destruct (Z.ltb_spec k (zlen L)).
  - destruct (V _ _ _ H) as (w & A & B & C & D). exists w. rewrite (zget_zset _ _ _ k _ Z). destruct (Z.eqb_spec k (zlen L)); [lia|].
    pose proof (zget_bound _ _ _ H). split; auto. split.
    { rewrite firstn_app. replace (Z.to_nat k - length L)%nat with O by (unfold zlen in *; lia). cbn. now rewrite app_nil_r. }
    split; auto. destruct D as [(D1 & D2)|(D1 & D2 & D3)].
    + left. split; auto. intros j J. apply at_snoc in J. destruct J as [J|(-> & ->)]; auto. destruct (No k). exists v. auto.
    + right. split; auto. split; [apply at_snoc; auto|]. intros j J. apply at_snoc in J. destruct J as [J|(-> & ->)]; auto. right. pose proof (at_bound _ _ _ D2). lia.
  - assert (k = zlen L) as -> by (apply zget_bound in H; unfold zlen in *; cbn in *; lia). rewrite Z.sub_diag in H. unfold zget in H. cbn in H. injection H as E. rewrite E in *. cbn [fst snd] in *.
    exists w0. rewrite (zget_zset _ _ _ _ _ Z), Z.eqb_refl. split; auto. split.
    { rewrite I. rewrite firstn_app. unfold zlen. rewrite Nat2Z.id, firstn_all, Nat.sub_diag. cbn. now rewrite app_nil_r. }
    split; auto. left. split; auto. intros j J. apply at_snoc in J. destruct J as [J|(-> & _)]; [apply at_bound in J|]; lia.
Qed.
Lemma set_step2 L vs p w0 vs1 t w vs2 : val_at L vs -> zset vs (zlen L) (Some w0) = Some vs1 -> v_next w0 = -1 ->
  v_index w0 = zlen (wire L) + 4 -> v_len w0 = zlen (snd p) ->
  t_id t = fst p -> at_ L (t_last t) (t_id t) -> (forall k, at_ L k (t_id t) -> k <= t_last t) ->
  zget vs1 (t_last t) = Some (Some w) -> zset vs1 (t_last t) (Some (mkV (zlen L) (v_index w) (v_len w))) = Some vs2 ->
  val_at (L ++ [p]) vs2.
Proof.
  intros V Z1 N I Ln T A La W Z2 k ty v H. pose proof (at_bound _ _ _ A) as Ba. rewrite (zget_zset _ _ _ _ _ Z1) in W. destruct (Z.eqb_spec (t_last t) (zlen L)); [lia|].
  rewrite zget_app in H. destruct (Z.ltb_spec k (zlen L)).
  - destruct (V _ _ _ H) as (u & U1 & U2 & U3 & U4). pose proof (zget_bound _ _ _ H).
    assert (P : zlen (wire (firstn (Z.to_nat k) (L ++ [p]))) = zlen (wire (firstn (Z.to_nat k) L))).
    { rewrite firstn_app. replace (Z.to_nat k - length L)%nat with O by (unfold zlen in *; lia). cbn. now rewrite app_nil_r. }
    destruct (Z.eqb_spec k (t_last t)) as [->|Nk].
    + assert (u = w) as -> by congruence. eexists. rewrite (zget_zset _ _ _ _ _ Z2), Z.eqb_refl. split; [reflexivity|]. cbn. rewrite P. split; auto. split; auto.
      assert (ty = fst p) as -> by (destruct A as (va & A); rewrite A in H; congruence).
      right. split; [lia|]. split; [apply at_snoc; auto|]. intros j J. apply at_snoc in J. destruct J as [J|(-> & _)]; [|right; lia]. left. apply La. now rewrite T.
    + exists u. rewrite (zget_zset _ _ _ _ _ Z2). destruct (Z.eqb_spec k (t_last t)); [contradiction|]. rewrite (zget_zset _ _ _ _ _ Z1).
      destruct (Z.eqb_spec k (zlen L)); [lia|]. rewrite P. split; auto. split; auto. split; auto.
      destruct U4 as [(D1 & D2)|(D1 & D2 & D3)].
      * left. split; auto. intros j J. apply at_snoc in J. destruct J as [J|(-> & ->)]; auto. exfalso. rewrite T in A. pose proof (D2 _ A). assert (k <= t_last t) by (apply La; rewrite T; exists v; auto). lia.
      * right. split; auto. split; [apply at_snoc; auto|]. intros j J. apply at_snoc in J. destruct J as [J|(-> & ->)]; auto. right. pose proof (at_bound _ _ _ D2). lia.
  - assert (k = zlen L) as -> by (apply zget_bound in H; unfold zlen in *; cbn in *; lia). rewrite Z.sub_diag in H. unfold zget in H. cbn in H. injection H as E. rewrite E in *. cbn [fst snd] in *.
    exists w0. rewrite (zget_zset _ _ _ _ _ Z2). destruct (Z.eqb_spec (zlen L) (t_last t)); [lia|]. rewrite (zget_zset _ _ _ _ _ Z1), Z.eqb_refl. split; auto. split.
    { rewrite I. rewrite firstn_app. unfold zlen. rewrite Nat2Z.id, firstn_all, Nat.sub_diag. cbn. now rewrite app_nil_r. }
    split; auto. left. split; auto. intros j J. apply at_snoc in J. destruct J as [J|(-> & _)]; [apply at_bound in J|]; lia.
Qed.

(** ** The loop *)
Definition readable (ts : list tlv) (rest : bytes) (n : Z) (L : list (Z * bytes)) : Prop :=
  firstn (Z.to_nat n) rest = wire L /\ Forall wf_tlv L /\ Forall (fits ts) L.

Lemma val_resize L vs n : val_at L vs -> zlen L <= n -> val_at L (resize vs n).
Proof.
  intros V H k ty v G. destruct (V _ _ _ G) as (w & A & B). exists w. split; auto. pose proof (zget_bound _ _ _ G). apply resize_get; auto. lia.
Qed.

Lemma parse_ok ts0 buf length : distinct ts0 -> all_bytes buf -> 0 <= length <= zlen buf -> length < 65536 ->
  forall fuel L rest ts vs max, buf = wire L ++ rest -> zlen (wire L) <= length -> length - zlen (wire L) < Z.of_nat fuel ->
  map key ts = map key ts0 -> Forall wf_tlv L -> Forall (fits ts0) L -> pinv ts vs max L -> zlen L <= zlen (wire L) ->
  exists r ts' vs' max', parse fuel buf length (zlen (wire L)) (zlen L) ts vs max = Some (r, (ts', vs', max')) /\
    map key ts' = map key ts0 /\ 0 <= max' <= zlen vs' /\ r <> P_TERMINATED /\
    ((r = P_OKAY /\ exists L', readable ts0 buf length (L ++ L') /\ pinv ts' vs' max' (L ++ L')) \/
     (r <> P_OKAY /\ forall L', ~ readable ts0 rest (length - zlen (wire L)) L')).
Proof.
  intros D AB LB L16. induction fuel as [|fuel IH]; intros L rest ts vs max E Le F K W Fi P Q; [lia|].
  assert (Dts : distinct ts) by (unfold distinct; rewrite (key_ids _ _ K); exact D).
  cbn [parse]. pose proof (i_cap _ _ _ _ P) as Cap. pose proof (zlen_nonneg L).
  destruct (Z.ltb_spec (zlen (wire L)) length) as [Lt|Ge].
  2: { exists P_OKAY, ts, vs, max. split; auto. split; auto. split; [lia|]. split; [discriminate|]. left. split; auto. exists [].
       rewrite app_nil_r. split; auto. split; auto. rewrite E. replace length with (zlen (wire L)) by lia. rewrite firstn_app. unfold zlen. rewrite Nat2Z.id, Nat.sub_diag, firstn_all. now rewrite app_nil_r. }
  assert (ERR : forall c, c <> P_OKAY -> c <> P_TERMINATED -> (forall L', ~ readable ts0 rest (length - zlen (wire L)) L') ->
    exists r ts' vs' max', Some (c, (ts, vs, max)) = Some (r, (ts', vs', max')) /\ map key ts' = map key ts0 /\ 0 <= max' <= zlen vs' /\ r <> P_TERMINATED /\
    ((r = P_OKAY /\ exists L', readable ts0 buf length (L ++ L') /\ pinv ts' vs' max' (L ++ L')) \/
     (r <> P_OKAY /\ forall L', ~ readable ts0 rest (length - zlen (wire L)) L'))).
  { intros c Nc Nt No. exists c, ts, vs, max. split; auto. split; auto. split; [lia|]. split; auto. }
  assert (Lr : zlen rest = zlen buf - zlen (wire L)) by (rewrite E, zlen_app; lia).
  destruct (Z.ltb_spec (length - zlen (wire L)) 4) as [S4|S4].
  { apply ERR; [discriminate|discriminate|]. intros L' (R1 & R2 & R3). apply (f_equal zlen) in R1. rewrite zlen_firstn in R1 by lia.
    destruct L' as [|p L']; [cbn [wire flat_map] in R1; rewrite zlen_nil in R1; lia|]. rewrite wire_cons, zlen_app, zlen_wire_tlv in R1. pose proof (zlen_nonneg (snd p)). pose proof (zlen_nonneg (wire L')). lia. }
  destruct (four rest ltac:(lia)) as (a & b & c & d & rest' & Er). subst rest.
  assert (Bs : is_u8 a /\ is_u8 b /\ is_u8 c /\ is_u8 d /\ all_bytes rest').
  { unfold all_bytes in AB. rewrite E, Forall_app in AB. destruct AB as (_ & AB). inversion AB as [|? ? B1 A1]; subst. inversion A1 as [|? ? B2 A2]; subst. inversion A2 as [|? ? B3 A3]; subst. inversion A3; subst. auto. }
  destruct Bs as (Ba & Bb & Bc & Bd & Br).
  replace (get16 buf (zlen (wire L))) with (Some (256 * a + b)) by (rewrite E; symmetry; apply get16_at; auto).
  replace (get16 buf (zlen (wire L) + 2)) with (Some (256 * c + d)).
  2: { rewrite E. change (a :: b :: c :: d :: rest') with ([a; b] ++ c :: d :: rest'). rewrite app_assoc. rewrite (get16_at (wire L ++ [a; b]) c d rest'); auto. rewrite zlen_app. reflexivity. }
  destruct (n16_bytes a b Ba Bb) as (Na & Ua). destruct (n16_bytes c d Bc Bd) as (Nc & Uc).
  set (ty := 256 * a + b) in *. set (len := 256 * c + d) in *. assert (Lr' : zlen rest' = zlen buf - zlen (wire L) - 4) by (rewrite !zlen_cons in Lr; lia).
  (* a list of TLVs for the rest starts with this one *)
  assert (HEAD : forall L', readable ts0 (a :: b :: c :: d :: rest') (length - zlen (wire L)) L' ->
    exists v L2, L' = (ty, v) :: L2 /\ zlen v = len /\ firstn (Z.to_nat (length - zlen (wire L) - 4)) rest' = v ++ wire L2 /\ fits ts0 (ty, v)).
  { intros L' (R1 & R2 & R3). destruct L' as [|[ty' v] L2].
    - exfalso. apply (f_equal zlen) in R1. rewrite zlen_firstn in R1 by (rewrite !zlen_cons; lia). cbn [wire flat_map] in R1. rewrite zlen_nil in R1. lia.
    - inversion R2 as [|? ? (W1 & W2 & W3) _]; subst. inversion R3; subst. cbn [fst snd] in *. rewrite wire_cons in R1. unfold wire_tlv, n16 in R1. cbn [fst snd app] in R1.
      replace (Z.to_nat (length - zlen (wire L))) with (S (S (S (S (Z.to_nat (length - zlen (wire L) - 4)))))) in R1 by lia. cbn [firstn] in R1. injection R1 as R1a R1b R1c R1d R1.
      assert (ty' = ty) by (unfold ty; rewrite R1a, R1b; clear; zdm; lia). assert (zlen v = len) by (unfold len; rewrite R1c, R1d; clear; zdm; lia). subst ty'. exists v, L2. auto. }
  destruct (Z.ltb_spec length (zlen (wire L) + 4 + len)) as [Sh|Sh].
  { apply ERR; [discriminate|discriminate|]. intros L' R. destruct (HEAD _ R) as (v & L2 & _ & V1 & V2 & _). apply (f_equal zlen) in V2. rewrite zlen_app, zlen_firstn in V2 by lia. pose proof (zlen_nonneg (wire L2)). lia. }
  destruct (get_tlv ts ty) as [t|] eqn:G.
  2: { apply ERR; [discriminate|discriminate|]. intros L' R. destruct (HEAD _ R) as (v & L2 & _ & _ & _ & V3). apply (fits_key ts0 ts) in V3; auto. destruct V3 as (t & It & Et & _). apply (get_tlv_None _ _ G t It Et). }
  destruct (get_tlv_Some _ _ _ G) as (It & Et).
  destruct ((t_max t <? len) || (len <? t_min t)) eqn:Bad.
  { apply ERR; [discriminate|discriminate|]. intros L' R. destruct (HEAD _ R) as (v & L2 & _ & V1 & _ & V3). apply (fits_key ts0 ts) in V3; auto. destruct V3 as (t' & It' & Et' & Rg). cbn [fst snd] in *.
    assert (t' = t) as -> by (apply (distinct_eq ts); auto; congruence). apply orb_true_iff in Bad. rewrite !Z.ltb_lt in Bad. lia. }
  apply orb_false_iff in Bad. rewrite !Z.ltb_ge in Bad.
  assert (0 <= len) by (unfold is_u16 in Uc; lia).
  destruct (split_at rest' len ltac:(lia)) as (v & rest2 & Ev & Lv). subst rest'.
  assert (Wv : wf_tlv (ty, v)). { split; auto. split; [cbn; rewrite Lv; auto|]. cbn. unfold all_bytes in Br. apply Forall_app in Br. tauto. }
  assert (Fv : fits ts0 (ty, v)). { apply (fits_key ts ts0); auto. exists t. cbn. split; auto. split; auto. lia. }
  assert (EB : buf = wire (L ++ [(ty, v)]) ++ rest2).
  { rewrite wire_snoc. unfold wire_tlv. cbn [fst snd]. rewrite Na, Lv, Nc. rewrite E. cbn [app]. now rewrite <- !app_assoc. }
  assert (LW : zlen (wire (L ++ [(ty, v)])) = zlen (wire L) + 4 + len) by (rewrite wire_snoc, zlen_app, zlen_wire_tlv; cbn [snd]; lia).
  assert (Ln : zlen (L ++ [(ty, v)]) = zlen L + 1) by (rewrite zlen_app, zlen_cons, zlen_nil; lia).
  (* the array *)
  set (vm := if max =? zlen L then (resize vs (zlen L + VALUE_STEP), max + VALUE_STEP) else (vs, max)).
  assert (VM : exists vs1 m1, vm = (vs1, m1) /\ val_at L vs1 /\ zlen L < m1 <= zlen vs1).
  { unfold vm. destruct (Z.eqb_spec max (zlen L)) as [->|Nm].
    - exists (resize vs (zlen L + VALUE_STEP)), (zlen L + VALUE_STEP). split; auto. split; [apply val_resize; [apply (i_val _ _ _ _ P)|unfold VALUE_STEP; lia]|].
      pose proof (resize_len_ge vs (zlen L + VALUE_STEP) ltac:(unfold VALUE_STEP; lia)). unfold VALUE_STEP in *. lia.
    - exists vs, max. split; auto. split; [apply (i_val _ _ _ _ P)|lia]. }
  destruct VM as (vs1 & m1 & Evm & V1 & Cm). rewrite Evm. clearbody vm. clear Evm vm.
  destruct (zset_Some vs1 (zlen L) (Some (mkV (-1) (u16 (zlen (wire L) + 4)) len)) ltac:(lia)) as (vs2 & Z2). rewrite Z2.
  assert (U : u16 (zlen (wire L) + 4) = zlen (wire L) + 4) by (apply u16_id; unfold is_u16; pose proof (zlen_nonneg (wire L)); lia). rewrite U in Z2.
  assert (NEXT : forall ts2 vs3, map key ts2 = map key ts0 -> pinv ts2 vs3 m1 (L ++ [(ty, v)]) ->
    exists r ts' vs' max', parse fuel buf length (zlen (wire L) + 4 + len) (zlen L + 1) ts2 vs3 m1 = Some (r, (ts', vs', max')) /\
    map key ts' = map key ts0 /\ 0 <= max' <= zlen vs' /\ r <> P_TERMINATED /\
    ((r = P_OKAY /\ exists L', readable ts0 buf length (L ++ L') /\ pinv ts' vs' max' (L ++ L')) \/
     (r <> P_OKAY /\ forall L', ~ readable ts0 (a :: b :: c :: d :: v ++ rest2) (length - zlen (wire L)) L'))).
  { intros ts2 vs3 K2 P2. rewrite <- LW, <- Ln.
    destruct (IH (L ++ [(ty, v)]) rest2 ts2 vs3 m1 EB ltac:(lia) ltac:(lia) K2 ltac:(apply Forall_app; auto) ltac:(apply Forall_app; auto) P2 ltac:(lia)) as (r & ts' & vs' & max' & R1 & R2 & R3 & R4 & R5).
    exists r, ts', vs', max'. split; auto. split; auto. split; auto. split; auto. destruct R5 as [(Ro & L' & R5)|(Ro & No)].
    - left. split; auto. exists ((ty, v) :: L'). rewrite <- app_assoc in R5. exact R5.
    - right. split; auto. intros L' R. destruct (HEAD _ R) as (v' & L2 & -> & V1' & V2 & _). rewrite firstn_Z_app in V2 by lia.
      assert (v = v') as <-. { apply (f_equal (firstn (Z.to_nat len))) in V2. rewrite firstn_app in V2. replace (Z.to_nat len - List.length v)%nat with O in V2 by (unfold zlen in *; lia). cbn [firstn] in V2. rewrite app_nil_r, firstn_all2 in V2 by (unfold zlen in *; lia).
        rewrite firstn_app in V2. replace (Z.to_nat len - List.length v')%nat with O in V2 by (unfold zlen in *; lia). cbn [firstn] in V2. rewrite app_nil_r, firstn_all2 in V2 by (unfold zlen in *; lia). exact V2. }
      apply app_inv_head in V2. apply (No L2). destruct R as (_ & R2' & R3'). split; [|split]; [|now inversion R2'|now inversion R3'].
      rewrite <- V2. f_equal. lia. }
  pose proof (i_tlv _ _ _ _ P t It) as Ta.
  destruct (Z.eqb_spec (t_last t) (-1)) as [El|Nl].
  - apply NEXT.
    + rewrite <- K. apply (put_tlv_key ts _ t); auto. unfold key. cbn. now rewrite Et.
    + assert (No : forall k, ~ at_ L k ty). { destruct Ta as [(_ & _ & A)|(_ & A & _)]; [now rewrite Et in A|]. apply at_bound in A. lia. }
      constructor.
      * rewrite (zset_len _ _ _ _ Z2). lia.
      * intros u Iu. apply put_tlv_In in Iu. cbn in Iu. destruct Iu as [(-> & _)|(Iu & Nu)].
        -- right. cbn. split; [apply at_snoc; right; auto|]. split; [apply at_snoc; right; auto|]. intros k Hk. apply at_snoc in Hk. destruct Hk as [Hk|(-> & _)]; [destruct (No k Hk)|lia].
        -- destruct (i_tlv _ _ _ _ P u Iu) as [(A1 & A2 & A3)|(A1 & A2 & A3)].
           ++ left. split; auto. split; auto. intros k Hk. apply at_snoc in Hk. destruct Hk as [Hk|(_ & Hk)]; [apply (A3 k Hk)|cbn in Hk; contradiction].
           ++ right. split; [apply at_snoc; auto|]. split; [apply at_snoc; auto|]. intros k Hk. apply at_snoc in Hk. destruct Hk as [Hk|(_ & Hk)]; [auto|cbn in Hk; contradiction].
      * eapply set_step; [exact V1|exact Z2|reflexivity|reflexivity|cbn; lia|reflexivity|exact No].
  - destruct Ta as [(_ & A & _)|(A1 & A2 & A3)]; [lia|].
    assert (exists w, zget vs2 (t_last t) = Some (Some w)) as (w & Ew).
    { pose proof A2 as A2'. destruct A2' as (v2 & A2'). destruct (V1 _ _ _ A2') as (w & Hw & _). exists w. rewrite (zget_zset _ _ _ _ _ Z2). pose proof (at_bound _ _ _ A2). destruct (Z.eqb_spec (t_last t) (zlen L)); [lia|auto]. }
    rewrite Ew. pose proof (zget_bound _ _ _ Ew) as Bw.
    destruct (zset_Some vs2 (t_last t) (Some (mkV (zlen L) (v_index w) (v_len w))) Bw) as (vs3 & Z3). rewrite Z3. apply NEXT.
    + rewrite <- K. apply (put_tlv_key ts _ t); auto. unfold key. cbn. now rewrite Et.
    + constructor.
      * rewrite (zset_len _ _ _ _ Z3), (zset_len _ _ _ _ Z2). lia.
      * intros u Iu. apply put_tlv_In in Iu. cbn in Iu. destruct Iu as [(-> & _)|(Iu & Nu)].
        -- right. cbn. rewrite Et in *. split; [apply at_snoc; auto|]. split; [apply at_snoc; right; auto|]. intros k Hk. pose proof (at_bound _ _ _ A1). apply at_snoc in Hk. destruct Hk as [Hk|(-> & _)]; [|lia].
           pose proof (A3 k Hk). apply at_bound in Hk. lia.
        -- destruct (i_tlv _ _ _ _ P u Iu) as [(B1 & B2 & B3)|(B1 & B2 & B3)].
           ++ left. split; auto. split; auto. intros k Hk. apply at_snoc in Hk. destruct Hk as [Hk|(_ & Hk)]; [apply (B3 k Hk)|cbn in Hk; contradiction].
           ++ right. split; [apply at_snoc; auto|]. split; [apply at_snoc; auto|]. intros k Hk. apply at_snoc in Hk. destruct Hk as [Hk|(_ & Hk)]; [auto|cbn in Hk; contradiction].
      * eapply set_step2; [exact V1|exact Z2|reflexivity|reflexivity|cbn; lia|exact Et|exact A2|intros k Hk; apply A3; auto|exact Ew|exact Z3].
Qed.

(** ** From the positions to the values *)
Lemma skipn_cons {A} (l : list A) k p : zget l k = Some p -> skipn (Z.to_nat k) l = p :: skipn (Z.to_nat (k + 1)) l.
Proof.
  intros H. pose proof (zget_bound _ _ _ H) as B. replace (Z.to_nat (k + 1)) with (S (Z.to_nat k)) by lia.
  unfold zget in H. destruct (k <? 0); [discriminate|]. clear B. revert l H. induction (Z.to_nat k) as [|n IH]; intros [|x l] H; cbn in *; try discriminate; [congruence|].
  apply IH; auto.
Qed.
Lemma occ_cons p l id : occurrences (p :: l) id = if fst p =? id then snd p :: occurrences l id else occurrences l id.
Proof. unfold occurrences. cbn. destruct (fst p =? id); reflexivity. Qed.
Lemma occ_none L id : (forall j, ~ at_ L j id) -> occurrences L id = [].
Proof.
  induction L as [|p L IH]; intros H; auto. rewrite occ_cons. destruct (Z.eqb_spec (fst p) id) as [E|E].
  - exfalso. apply (H 0). exists (snd p). unfold zget. cbn. destruct p; cbn in *; subst; reflexivity.
  - apply IH. intros j (v & J). apply (H (j + 1)). exists v. pose proof (zget_bound _ _ _ J). unfold zget in *. destruct (Z.ltb_spec j 0); [lia|]. destruct (Z.ltb_spec (j + 1) 0); [lia|]. replace (Z.to_nat (j + 1)) with (S (Z.to_nat j)) by lia. auto.
Qed.
Lemma occ_some L id j : at_ L j id -> occurrences L id <> [].
Proof.
  intros (v & H) E. unfold zget in H. destruct (j <? 0); [discriminate|]. apply nth_error_In in H.
  assert (I : In v (occurrences L id)). { unfold occurrences. apply in_map_iff. exists (id, v). split; auto. apply filter_In. split; auto. cbn. apply Z.eqb_refl. }
  rewrite E in I. destruct I.
Qed.
Lemma at_skipn L n j id : at_ (skipn n L) j id -> at_ L (Z.of_nat n + j) id.
Proof. intros (v & H). exists v. pose proof (zget_bound _ _ _ H). rewrite zget_skipn in H by lia. auto. Qed.
Lemma occ_skip L id d : forall k, 0 <= k -> k + Z.of_nat d <= zlen L -> (forall j, k <= j < k + Z.of_nat d -> ~ at_ L j id) ->
  occurrences (skipn (Z.to_nat k) L) id = occurrences (skipn (Z.to_nat (k + Z.of_nat d)) L) id.
Proof.
  induction d as [|d IH]; intros k K B H; [now rewrite Z.add_0_r|].
  destruct (zget L k) as [p|] eqn:E.
  2: { destruct (zget_Some L k) as (p & Q); [lia|congruence]. }
  rewrite (skipn_cons _ _ _ E), occ_cons. destruct (Z.eqb_spec (fst p) id) as [F|F].
  - exfalso. apply (H k); [lia|]. exists (snd p). rewrite E. destruct p; cbn in *; subst; reflexivity.
  - rewrite IH; [f_equal; f_equal; lia|lia|lia|]. intros j J. apply H. lia.
Qed.

Lemma wire_split L k p : zget L k = Some p -> wire L = (wire (firstn (Z.to_nat k) L) ++ n16 (fst p) ++ n16 (zlen (snd p))) ++ snd p ++ wire (skipn (Z.to_nat (k + 1)) L).
Proof.
  intros H. rewrite <- (firstn_skipn (Z.to_nat k) L) at 1. rewrite (skipn_cons _ _ _ H), wire_app, wire_cons. unfold wire_tlv. now rewrite <- !app_assoc.
Qed.
Lemma values_at L vs : val_at L vs -> forall n k id, at_ L k id -> zlen L - k < Z.of_nat n ->
  values_from vs (wire L) k (occurrences (skipn (Z.to_nat k) L) id).
Proof.
  intros V. induction n as [|n IH]; intros k id A N; pose proof (at_bound _ _ _ A) as B; [lia|].
  destruct A as (v & A). destruct (V _ _ _ A) as (w & W1 & W2 & W3 & W4).
  rewrite (skipn_cons _ _ _ A), occ_cons. cbn [fst snd]. rewrite Z.eqb_refl.
  eapply vf_next; [exact W1|apply (wire_split _ _ _ A)| | |].
  - rewrite !zlen_app. unfold n16. rewrite !zlen_cons, zlen_nil. lia.
  - cbn. auto.
  - destruct W4 as [(E & No)|(Lt & At & Be)].
    + rewrite E, occ_none; [constructor|]. intros j J. pose proof (at_bound _ _ _ J) as Bj. apply at_skipn in J. pose proof (No _ J). lia.
    + pose proof (at_bound _ _ _ At). replace (occurrences (skipn (Z.to_nat (k + 1)) L) id) with (occurrences (skipn (Z.to_nat (v_next w)) L) id).
      * apply IH; auto. lia.
      * symmetry. replace (v_next w) with (k + 1 + Z.of_nat (Z.to_nat (v_next w - k - 1))) by lia. apply occ_skip; [lia|lia|].
        intros j J Aj. destruct (Be _ Aj); lia.
Qed.
Lemma tlv_values L vs t : val_at L vs -> tlv_at L t -> values_from vs (wire L) (t_first t) (occurrences L (t_id t)).
Proof.
  intros V [(E & _ & No)|(A & _ & B)].
  - rewrite E, occ_none by auto. constructor.
  - pose proof (at_bound _ _ _ A). replace (occurrences L (t_id t)) with (occurrences (skipn (Z.to_nat (t_first t)) L) (t_id t)).
    + apply (values_at L vs V (S (Z.to_nat (zlen L)))); auto. lia.
    + symmetry. pose proof (occ_skip L (t_id t) (Z.to_nat (t_first t)) 0 ltac:(lia) ltac:(lia)) as Q. rewrite Z.add_0_l, Z2Nat.id in Q by lia. rewrite <- Q; auto.
      intros j J Aj. apply B in Aj. lia.
Qed.

(** ** Parsing of a whole signal *)
Definition same_rest (s s' : sess) : Prop :=
  q_restrict s' = q_restrict s /\ q_next s' = q_next s /\ q_exts s' = q_exts s /\ q_calls s' = q_calls s /\ q_out s' = q_out s.
Lemma parse_tlvstream_ok s buf length : distinct (q_tlvs s) -> 0 <= q_max s <= zlen (q_values s) -> all_bytes buf ->
  0 <= length <= zlen buf -> length < 65536 ->
  exists r s', parse_tlvstream s buf length = Some (r, s') /\ same_rest s s' /\ map key (q_tlvs s') = map key (q_tlvs s) /\
    0 <= q_max s' <= zlen (q_values s') /\ r <> P_TERMINATED /\
    ((r = P_OKAY /\ exists L, readable (q_tlvs s) buf length L /\ pinv (q_tlvs s') (q_values s') (q_max s') L) \/
     (r <> P_OKAY /\ forall L, ~ readable (q_tlvs s) buf length L)).
Proof.
  intros D M AB LB L16. unfold parse_tlvstream. set (ts := map _ (q_tlvs s)).
  assert (K : map key ts = map key (q_tlvs s)) by (unfold ts; rewrite map_map; apply map_ext; reflexivity).
  destruct (parse_ok (q_tlvs s) buf length D AB LB L16 (S (Z.to_nat length)) [] buf ts (q_values s) (q_max s) eq_refl) as (r & ts' & vs' & m' & R1 & R2 & R3 & R4 & R5); auto.
  - cbn. rewrite zlen_nil. lia.
  - cbn [wire flat_map]. rewrite zlen_nil. lia.
  - constructor.
    + rewrite zlen_nil. lia.
    + intros t It. left. unfold ts in It. apply in_map_iff in It. destruct It as (u & <- & _). cbn. split; auto. split; auto. intros k A. apply at_bound in A. unfold zlen in A. cbn in A. lia.
    + intros k ty v H. apply zget_bound in H. unfold zlen in H. cbn in H. lia.
  - apply Z.le_refl.
  - change (parse (S (Z.to_nat length)) buf length 0 0 ts (q_values s) (q_max s) = Some (r, (ts', vs', m'))) in R1. rewrite R1. exists r, (set_parsed s ts' vs' m'). split; auto. split; [repeat split|]. cbn. split; auto. split; auto. split; auto.
    destruct R5 as [(Ro & L & Q)|(Ro & No)]; [left; eauto|right]. split; auto. intros L Q. apply (No L). cbn [wire flat_map]. rewrite zlen_nil, Z.sub_0_r. exact Q.
Qed.
