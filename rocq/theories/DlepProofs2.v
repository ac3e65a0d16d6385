(** Proofs about DLEP extensions, the calls of the extensions, and the processing
    of signals. *)
From Coq Require Import Permutation.
From Verif Require Import Base BufLemmas SplitLemmas DlepModel DlepSpec DlepProofs.

Lemma nd_snoc {A} (l : list A) x : NoDup l -> ~ In x l -> NoDup (l ++ [x]).
Proof. intros H N. apply (Permutation_NoDup (l := x :: l)); [apply Permutation_cons_append|constructor; auto]. Qed.

(** ** Ids of extensions *)
Lemma ext_ids_ok ids : Forall is_u16 ids -> forall pre post i, zlen pre = 2 * i ->
  ext_ids (pre ++ flat_map n16 ids ++ post) i (length ids) = Some ids.
Proof.
  induction 1 as [|x ids U _ IH]; intros pre post i E; [reflexivity|]. cbn [ext_ids length flat_map]. unfold n16 at 1 3. cbn [app].
  rewrite (get16_at pre (x / 256) (x mod 256) (flat_map n16 ids ++ post)) by lia.
  replace (pre ++ x / 256 :: x mod 256 :: flat_map n16 ids ++ post) with ((pre ++ n16 x) ++ flat_map n16 ids ++ post) by (rewrite <- app_assoc; reflexivity).
  rewrite IH; [|rewrite zlen_app; unfold n16; rewrite !zlen_cons, zlen_nil; lia].
  f_equal. f_equal. zdm. lia.
Qed.
Lemma zlen_flat_n16 ids : zlen (flat_map n16 ids) = 2 * zlen ids.
Proof. induction ids as [|x l IH]; [reflexivity|]. cbn [flat_map]. rewrite zlen_app, IH, zlen_cons. unfold n16. rewrite !zlen_cons, zlen_nil. lia. Qed.
Lemma ext_ids_list v ids post : id_list v ids -> ext_ids (v ++ post) 0 (Z.to_nat (zlen v / 2)) = Some ids.
Proof.
  intros (odd & -> & O & U). rewrite <- app_assoc.
  replace (Z.to_nat (zlen (flat_map n16 ids ++ odd) / 2)) with (length ids).
  - apply (ext_ids_ok ids U []). reflexivity.
  - rewrite zlen_app, zlen_flat_n16. pose proof (zlen_nonneg odd). replace ((2 * zlen ids + zlen odd) / 2) with (zlen ids) by (zdm; lia). unfold zlen. lia.
Qed.
Lemma id_list_ex v : all_bytes v -> exists ids, id_list v ids.
Proof.
  remember (length v) as n eqn:E. assert (length v <= n)%nat as Le by lia. clear E. revert v Le. induction n as [|n IH]; intros v Le A.
  - destruct v; [|cbn in Le; lia]. exists [], []. cbn. split; auto. split; [unfold zlen; cbn; lia|constructor].
  - destruct v as [|a [|b v]].
    + exists [], []. cbn. split; auto. split; [unfold zlen; cbn; lia|constructor].
    + exists [], [a]. cbn. split; auto. split; [unfold zlen; cbn; lia|constructor].
    + inversion A as [|? ? Ba A1]; subst. inversion A1 as [|? ? Bb A2]; subst. destruct (IH v) as (ids & odd & -> & O & U); [cbn in Le; lia|exact A2|].
      destruct (n16_bytes a b Ba Bb) as (N & N16). exists ((256 * a + b) :: ids), odd. cbn [flat_map]. rewrite N. split; auto.
Qed.

(** ** The registry *)
Section Session.
Context (xs : list ext) (REG : registry xs).
Definition base := map x_id (firstn 3 xs).
Definition known (ids : list Z) := filter (fun i => existsb (fun x => x_id x =? i) xs) ids.

Lemma get_ext_In e : (exists x, In x xs /\ x_id x = e) -> exists x, get_ext xs e = Some x /\ In x xs /\ x_id x = e.
Proof.
  intros (x & I & E). unfold get_ext. destruct (find _ xs) as [y|] eqn:F.
  - exists y. split; auto. apply find_some in F. destruct F as (F & Q). apply Z.eqb_eq in Q. auto.
  - pose proof (find_none _ _ F x I) as N. cbn in N. rewrite E, Z.eqb_refl in N. discriminate.
Qed.
Lemma ext_eq x y : In x xs -> In y xs -> x_id x = x_id y -> x = y.
Proof.
  pose proof (r_nodup _ REG) as N. clear REG. induction xs as [|z l IH]; cbn; [tauto|]. cbn in N. inversion N as [|? ? A B]; subst.
  intros [->|I] [->|J] E; auto.
  - destruct A. rewrite E. now apply in_map.
  - destruct A. rewrite <- E. now apply in_map.
Qed.
Lemma get_ext_x x : In x xs -> get_ext xs (x_id x) = Some x.
Proof.
  intros I. destruct (get_ext_In (x_id x)) as (y & E & J & K); [eauto|]. rewrite E. f_equal. apply ext_eq; auto.
Qed.
Lemma in_firstn x : In x (firstn 3 xs) -> In x xs.
Proof. intros I. rewrite <- (firstn_skipn 3 xs). apply in_or_app. auto. Qed.
Lemma base_len : zlen base = 3.
Proof. unfold base. pose proof (r_count _ REG) as C. unfold zlen in *. rewrite map_length, firstn_length. lia. Qed.
Lemma in_known i ids : In i (known ids) <-> In i ids /\ exists x, In x xs /\ x_id x = i.
Proof.
  unfold known. rewrite filter_In, existsb_exists. split.
  - intros (A & x & B & C). apply Z.eqb_eq in C. eauto.
  - intros (A & x & B & C). split; auto. exists x. rewrite C, Z.eqb_refl. auto.
Qed.

(** ** Allowed TLVs *)
Definition from_ext (es : list Z) (t : tlv) : Prop := exists x, In x xs /\ In (x_id x) es /\ In (t_id t, (t_min t, t_max t)) (x_tlvs x).
Definition lens (ts : list tlv) : Prop := forall t, In t ts -> exists x, In x xs /\ In (t_id t, (t_min t, t_max t)) (x_tlvs x).
Definition fresh (ts : list tlv) (t : tlv) : Prop := t_first t = -1 /\ t_last t = -1 /\ ~ In (t_id t) (map t_id ts).

Lemma add_tlvs_ok x : In x xs -> forall l ts, (forall p, In p l -> In p (x_tlvs x)) -> distinct ts -> lens ts ->
  exists ts', add_tlvs ts l = (true, ts') /\ distinct ts' /\ lens ts' /\
    (forall t, In t ts -> In t ts') /\
    (forall id a, In (id, a) l -> exists t, In t ts' /\ t_id t = id /\ (t_min t, t_max t) = a) /\
    (forall t, In t ts' -> In t ts \/ (fresh ts t /\ In (t_id t, (t_min t, t_max t)) l)).
Proof.
  intros X. induction l as [|[id [lo hi]] l IH]; intros ts Sub D Le.
  - exists ts. cbn. split; auto. split; auto. split; auto. split; auto. split; [intros ? ? []|auto].
  - cbn [add_tlvs]. destruct (get_tlv ts id) as [t|] eqn:G.
    + destruct (get_tlv_Some _ _ _ G) as (It & Et). destruct (Le t It) as (y & Y & Q). rewrite Et in Q.
      assert ((t_min t, t_max t) = (lo, hi)) as E by (apply (r_len _ REG y x id); auto; apply Sub; now left). injection E as -> ->. rewrite !Z.eqb_refl. cbn [andb].
      destruct (IH ts ltac:(intros; apply Sub; now right) D Le) as (ts' & A & B & C & F & H & K). exists ts'. split; auto. split; auto. split; auto. split; auto. split.
      * intros i a [E|I]; [|auto]. injection E as <- <-. exists t. split; auto. split; auto. destruct (Le t It) as (y' & Y' & Q'). rewrite Et in Q'. apply (r_len _ REG y' x id); auto. apply Sub. now left.
      * intros u U. destruct (K u U) as [|(K1 & K2)]; auto. right. split; auto. now right.
    + set (n := mkT id (-1) (-1) lo hi). pose proof (get_tlv_None _ _ G) as No.
      assert (Ni : ~ In id (map t_id ts)) by (intros I; apply in_map_iff in I; destruct I as (t & E & I); apply (No t I E)).
      assert (D' : distinct (ts ++ [n])).
      { unfold distinct. rewrite map_app. cbn. apply nd_snoc; auto. }
      assert (Le' : lens (ts ++ [n])).
      { intros t I. apply in_app_or in I. destruct I as [I|[<-|[]]]; auto. exists x. split; auto. cbn. apply Sub. now left. }
      destruct (IH (ts ++ [n]) ltac:(intros; apply Sub; now right) D' Le') as (ts' & A & B & C & F & H & K). exists ts'. split; auto. split; auto. split; auto.
      split; [intros; apply F; apply in_or_app; auto|]. split.
      * intros i a [E|I]; [|auto]. injection E as <- <-. exists n. split; [apply F; apply in_or_app; right; now left|]. auto.
      * intros u U. destruct (K u U) as [I|((K1 & K2 & K3) & K4)].
        -- apply in_app_or in I. destruct I as [I|[<-|[]]]; auto. right. split; [|cbn; auto]. split; auto.
        -- right. split; [|now right]. split; auto. split; auto. intros J. apply K3. rewrite map_app. apply in_or_app. auto.
Qed.

Definition registered (es : list Z) : Prop := forall e, In e es -> exists x, In x xs /\ x_id x = e.
Lemma add_exts_ok : forall es ts, registered es -> distinct ts -> lens ts ->
  exists ts', add_exts xs ts es = Some (true, ts') /\ distinct ts' /\ lens ts' /\ (forall t, In t ts -> In t ts') /\
    (forall x id a, In x xs -> In (x_id x) es -> In (id, a) (x_tlvs x) -> exists t, In t ts' /\ t_id t = id /\ (t_min t, t_max t) = a) /\
    (forall t, In t ts' -> In t ts \/ fresh ts t).
Proof.
  induction es as [|e es IH]; intros ts R D Le.
  - exists ts. cbn. split; auto. split; auto. split; auto. split; auto. split; [intros ? ? ? ? []|auto].
  - cbn [add_exts]. destruct (get_ext_In e (R e (or_introl eq_refl))) as (x & G & X & Ex). rewrite G.
    destruct (add_tlvs_ok x X (x_tlvs x) ts ltac:(auto) D Le) as (t1 & A1 & A2 & A3 & A4 & A5 & A6). rewrite A1.
    destruct (IH t1 ltac:(intros f F; apply R; now right) A2 A3) as (t2 & B1 & B2 & B3 & B4 & B5 & B6). exists t2. split; auto. split; auto. split; auto. split; auto. split.
    + intros y id a Y [E|I] Q.
      * assert (y = x) as -> by (apply ext_eq; auto; congruence). destruct (A5 id a Q) as (t & I & J). exists t. auto.
      * apply (B5 y id a Y I Q).
    + intros t I. destruct (B6 t I) as [J|(J1 & J2 & J3)].
      * destruct (A6 t J) as [|(F & _)]; auto.
      * right. split; auto. split; auto. intros K. apply J3. apply in_map_iff in K. destruct K as (u & U & V). rewrite <- U. apply in_map. auto.
Qed.
Lemma ext_has_iff es id : registered es -> (ext_has xs es id = true <-> exists x, In x xs /\ In (x_id x) es /\ has_tlv x id).
Proof.
  intros R. unfold ext_has. rewrite existsb_exists. split.
  - intros (e & E & H). destruct (get_ext_In e (R e E)) as (x & G & X & Q). rewrite G in H. apply existsb_exists in H. destruct H as ([i a] & I & J). apply Z.eqb_eq in J. cbn in J. subst i. exists x. rewrite Q. split; auto. split; auto. exists a. auto.
  - intros (x & X & I & a & A). exists (x_id x). split; auto. rewrite (get_ext_x x X). apply existsb_exists. exists (id, a). split; auto. apply Z.eqb_refl.
Qed.
Lemma NoDup_map_filter {A B} (f : A -> B) p l : NoDup (map f l) -> NoDup (map f (filter p l)).
Proof.
  induction l as [|x l IH]; cbn; auto. intros N. inversion N as [|? ? N1 N2]; subst. destruct (p x); cbn; auto. constructor; auto.
  intros I. apply N1. apply in_map_iff in I. destruct I as (y & E & J). apply filter_In in J. rewrite <- E. apply in_map. tauto.
Qed.
Definition exact (ts : list tlv) (es : list Z) : Prop := forall id a,
  (exists t, In t ts /\ t_id t = id /\ (t_min t, t_max t) = a) <-> exists x, (In x xs /\ In (x_id x) es) /\ In (id, a) (x_tlvs x).
Lemma update_allowed_ok s : distinct (q_tlvs s) -> lens (q_tlvs s) -> registered (q_exts s) ->
  exists ts, update_allowed xs s = Some (0, set_exts s ts (q_exts s)) /\ distinct ts /\ exact ts (q_exts s) /\
    forall t, In t ts -> In t (q_tlvs s) \/ fresh (q_tlvs s) t.
Proof.
  intros D Le R. unfold update_allowed. destruct (add_exts_ok (q_exts s) (q_tlvs s) R D Le) as (ts & A & B & C & E & F & G). rewrite A.
  eexists. split; [reflexivity|]. split; [apply NoDup_map_filter; exact B|]. split.
  - intros id a. split.
    + intros (t & I & J & K). apply filter_In in I. destruct I as (I & H). rewrite J in H. apply ext_has_iff in H; auto. destruct H as (x & X & Y & b & Z). exists x. split; auto.
      destruct (C t I) as (y & Y' & Q). assert (b = a) as <-; auto. rewrite J, K in Q. apply (r_len _ REG x y id); auto.
    + intros (x & (X & Y) & Q). destruct (F x id a X Y Q) as (t & I & J & K). exists t. split; auto. apply filter_In. split; auto. rewrite J. apply ext_has_iff; auto. exists x. split; auto. split; auto. exists a. auto.
  - intros t I. apply filter_In in I. apply G. tauto.
Qed.

(** ** Update of the extensions *)
Lemma deactivate_ok ids : (forall x, In x xs -> 0 <= x_id x -> In (x_id x) ids \/ x_deact x = true) ->
  forall es, (forall e, In e es -> 0 <= e /\ exists x, In x xs /\ x_id x = e) -> deactivate xs es ids = Some tt.
Proof.
  intros H. induction es as [|e es IH]; intros R; auto. cbn. destruct (existsb (Z.eqb e) ids) eqn:E; [apply IH; intros; apply R; now right|].
  destruct (R e (or_introl eq_refl)) as (P & Q). destruct (get_ext_In e Q) as (x & G & X & Ex). rewrite G. destruct (H x X ltac:(lia)) as [I|I].
  - exfalso. rewrite Ex in I. assert (existsb (Z.eqb e) ids = true) by (apply existsb_exists; exists e; split; auto; apply Z.eqb_refl). congruence.
  - rewrite I. apply IH. intros; apply R; now right.
Qed.
Lemma append_ok : forall ids es, zlen es + zlen (known ids) <= 7 -> append_exts xs es ids = Some (es ++ known ids).
Proof.
  induction ids as [|e ids IH]; intros es L; [cbn; now rewrite app_nil_r|]. cbn [append_exts].
  unfold known in *. cbn [filter] in *. destruct (existsb (fun x => x_id x =? e) xs) eqn:E.
  - apply existsb_exists in E. destruct E as (x & X & Q). apply Z.eqb_eq in Q. destruct (get_ext_In e ltac:(eauto)) as (y & G & _). rewrite G.
    rewrite zlen_cons in L. pose proof (zlen_nonneg (filter (fun i => existsb (fun x0 => x_id x0 =? i) xs) ids)).
    destruct (Z.ltb_spec (zlen es) (BASE_COUNT + EXT_COUNT)); [|unfold BASE_COUNT, EXT_COUNT in *; lia].
    rewrite IH; [now rewrite <- app_assoc|]. rewrite zlen_app, zlen_cons, zlen_nil. lia.
  - destruct (get_ext xs e) as [x|] eqn:G.
    + exfalso. unfold get_ext in G. apply find_some in G. destruct G as (G1 & G2). assert (existsb (fun x => x_id x =? e) xs = true) by (apply existsb_exists; eauto). congruence.
    + apply IH. auto.
Qed.

Definition set_ok (ids : list Z) : Prop :=
  zlen (known ids) <= 4 /\ forall x, In x xs -> 0 <= x_id x -> In (x_id x) ids \/ x_deact x = true.
Lemma exact_lens ts es : exact ts es -> lens ts.
Proof. intros E t I. destruct (proj1 (E (t_id t) (t_min t, t_max t))) as (x & (A & _) & B); eauto. Qed.
Lemma sane_exact s : sane xs s -> exact (q_tlvs s) (q_exts s).
Proof. intros S. exact (n_allowed _ _ S). Qed.
Lemma update_extensions_ok s v post ids : sane xs s -> id_list v ids -> set_ok ids ->
  exists ts, update_extensions xs s (v ++ post) (zlen v / 2) = Some (0, set_exts s ts (base ++ known ids)) /\
    sane xs (set_exts s ts (base ++ known ids)) /\ forall t, In t ts -> In t (q_tlvs s) \/ fresh (q_tlvs s) t.
Proof.
  intros Sn Il (Cn & De). unfold update_extensions. rewrite (ext_ids_list v ids post Il).
  destruct (n_exts _ _ Sn) as (l & El & Ll & Rl). fold base in El. pose proof base_len as BL. rewrite El.
  rewrite zlen_app. pose proof (zlen_nonneg l). destruct (Z.ltb_spec (zlen base + zlen l) BASE_COUNT); [unfold BASE_COUNT in *; lia|].
  assert (T : Z.to_nat BASE_COUNT = length base) by (unfold zlen in BL; unfold BASE_COUNT; lia). rewrite T.
  rewrite skipn_app, skipn_all, Nat.sub_diag. cbn [skipn app]. rewrite (deactivate_ok ids De l Rl).
  rewrite firstn_app, firstn_all, Nat.sub_diag. cbn [firstn]. rewrite app_nil_r.
  rewrite append_ok by lia.
  assert (Reg : registered (base ++ known ids)).
  { intros e I. apply in_app_or in I. destruct I as [I|I].
    - unfold base in I. apply in_map_iff in I. destruct I as (x & E & I). exists x. split; auto. apply in_firstn; auto.
    - apply in_known in I. tauto. }
  destruct (update_allowed_ok (set_exts s (q_tlvs s) (base ++ known ids)) (n_ids _ _ Sn) (exact_lens _ _ (sane_exact s Sn)) Reg) as (ts & A & B & C & D).
  exists ts. split; [exact A|]. split; [|exact D]. constructor.
  - exact B.
  - exact (n_max _ _ Sn).
  - exists (known ids). split; auto. split; auto. intros e I. apply in_known in I. destruct I as (I & J). split; auto.
    destruct Il as (odd & _ & _ & U). rewrite Forall_forall in U. apply U in I. unfold is_u16 in I. lia.
  - exact C.
Qed.

(** ** The state while a signal with the TLVs [L] is processed *)
Definition first_ext (L : list (Z * bytes)) : bytes := match occurrences L EXTENSIONS_TLV with v :: _ => v | [] => [] end.
Record during (L : list (Z * bytes)) (ids : list Z) (s : sess) : Prop := {
  d_sane : sane xs s;
  d_val : val_at L (q_values s);
  d_tlv : forall t, In t (q_tlvs s) -> tlv_at L t;
  d_src : forall p, In p L -> exists y, In y xs /\ has_tlv y (fst p);
  d_exts : (forall p, In p L -> In (fst p) (map t_id (q_tlvs s))) \/ q_exts s = base ++ known ids }.

Lemma base_tlv s x id : sane xs s -> In x (firstn 3 xs) -> has_tlv x id -> exists t, In t (q_tlvs s) /\ t_id t = id.
Proof.
  intros Sn X (a & A). destruct (proj2 (n_allowed _ _ Sn id a)) as (t & I & J & _); [|eauto].
  exists x. split; auto. split; [apply in_firstn; auto|]. destruct (n_exts _ _ Sn) as (l & -> & _). apply in_or_app. left. apply in_map. auto.
Qed.
Lemma ext_tlv s : sane xs s -> exists t, In t (q_tlvs s) /\ t_id t = EXTENSIONS_TLV.
Proof. intros Sn. destruct (r_ext _ REG) as (x & X & Y). apply (base_tlv s x); auto. Qed.

Lemma values_inv vs ptr i l : values_from vs ptr i l -> (i = -1 /\ l = []) \/
  exists v pre x post l', zget vs i = Some (Some v) /\ ptr = pre ++ x ++ post /\ zlen pre = v_index v /\ zlen x = v_len v /\ values_from vs ptr (v_next v) l' /\ l = x :: l'.
Proof. intros H. inversion H; subst; [left; auto|right; eauto 11]. Qed.
Lemma skipn_zapp {A} (a b : list A) n : zlen a = n -> skipn (Z.to_nat n) (a ++ b) = b.
Proof. intros <-. unfold zlen. rewrite Nat2Z.id, skipn_app, skipn_all, Nat.sub_diag. reflexivity. Qed.

(** the extensions TLV of the signal *)
Lemma first_value_ok L ids s : during L ids s -> (exists post, first_value (q_tlvs s) (q_values s) (wire L) EXTENSIONS_TLV = Some (Some (first_ext L ++ post, zlen (first_ext L)))) \/
  (first_value (q_tlvs s) (q_values s) (wire L) EXTENSIONS_TLV = Some None /\ first_ext L = []).
Proof.
  intros D. destruct (ext_tlv s (d_sane _ _ _ D)) as (t & I & E). unfold first_value. rewrite <- E, (get_tlv_In _ t (n_ids _ _ (d_sane _ _ _ D)) I).
  pose proof (tlv_values L _ t (d_val _ _ _ D) (d_tlv _ _ _ D t I)) as V. rewrite E in V. unfold first_ext.
  destruct (values_inv _ _ _ _ V) as [(F & O)|(v & pre & x & post & l' & Z & P & Lp & Lx & _ & O)].
  - right. rewrite F, O. auto.
  - left. rewrite Z, O. destruct (Z.eqb_spec (t_first t) (-1)) as [Q|Q]; [rewrite Q in Z; apply zget_bound in Z; lia|].
    exists post. rewrite P, (skipn_zapp _ _ _ Lp), Lx. reflexivity.
Qed.
Lemma update_step L ids s : during L ids s -> id_list (first_ext L) ids -> set_ok ids ->
  exists s', (match first_value (q_tlvs s) (q_values s) (wire L) EXTENSIONS_TLV with
              | None => None
              | Some o => let '(p, n) := match o with Some (p, n) => (p, n / 2) | None => ([], 0) end in update_extensions xs s p n
              end) = Some (0, s') /\ during L ids s' /\
   (q_calls s' = q_calls s /\ q_values s' = q_values s /\ q_restrict s' = q_restrict s /\ q_out s' = q_out s).
Proof.
  intros D Il So.
  assert (exists post, (match first_value (q_tlvs s) (q_values s) (wire L) EXTENSIONS_TLV with
              | None => None
              | Some o => let '(p, n) := match o with Some (p, n) => (p, n / 2) | None => ([], 0) end in update_extensions xs s p n
              end) = update_extensions xs s (first_ext L ++ post) (zlen (first_ext L) / 2)) as (post & ->).
  { destruct (first_value_ok L ids s D) as [(post & F)|(F & E)]; rewrite F; [eauto|]. exists []. rewrite E. reflexivity. }
  destruct (update_extensions_ok s (first_ext L) post ids (d_sane _ _ _ D) Il So) as (ts & U & Sn & Ne). rewrite U. eexists. split; [reflexivity|]. split; [|cbn; auto].
  constructor; auto.
  - exact (d_val _ _ _ D).
  - cbn. intros t I. destruct (Ne t I) as [J|(J1 & J2 & J3)]; [apply (d_tlv _ _ _ D); auto|].
    left. split; auto. split; auto. intros k (v & A). destruct (d_exts _ _ _ D) as [X|X].
    + apply J3. unfold zget in A. destruct (k <? 0); [discriminate|]. apply nth_error_In in A. apply X in A. exact A.
    + apply J3. destruct (proj1 (n_allowed _ _ Sn (t_id t) (t_min t, t_max t))) as (x & Ax & Tx); [exists t; auto|].
      destruct (proj2 (n_allowed _ _ (d_sane _ _ _ D) (t_id t) (t_min t, t_max t))) as (u & U1 & U2 & _).
      * exists x. split; auto. unfold active in *. cbn in Ax. rewrite X. auto.
      * rewrite <- U2. now apply in_map.
  - exact (d_src _ _ _ D).
Qed.
Lemma during_restrict L ids s r : during L ids s -> during L ids (set_restrict s r).
Proof. intros [[] ? ? ? ?]. constructor; [constructor| | | |]; auto. Qed.
Lemma during_next L ids s r : during L ids s -> during L ids (set_next s r).
Proof. intros [[] ? ? ? ?]. constructor; [constructor| | | |]; auto. Qed.
Lemma during_call L ids s c : during L ids s -> during L ids (add_call s c).
Proof. intros [[] ? ? ? ?]. constructor; [constructor| | | |]; auto. Qed.

Lemma act_ok L ids : id_list (first_ext L) ids -> forall l s, during L ids s -> (In UpdateExt l -> set_ok ids) ->
  exists s', act xs s (wire L) l = Some (0, s') /\ during L ids s' /\ q_calls s' = q_calls s /\ q_out s' = q_out s.
Proof.
  intros Il. induction l as [|a l IH]; intros s D P; [exists s; auto|]. assert (P' : In UpdateExt l -> set_ok ids) by (intros; apply P; now right).
  destruct a as [r|r|]; cbn [act].
  - destruct (IH _ (during_restrict _ _ _ r D) P') as (s' & A & B & C). exists s'. auto.
  - destruct (IH _ (during_next _ _ _ r D) P') as (s' & A & B & C). exists s'. auto.
  - destruct (update_step L ids s D Il (P (or_introl eq_refl))) as (s1 & A & B & C1 & C2 & C3 & C4).
    destruct (first_value (q_tlvs s) (q_values s) (wire L) EXTENSIONS_TLV) as [o|]; [|discriminate].
    destruct (match o with Some (p, n) => (p, n / 2) | None => ([], 0) end) as [p n]. rewrite A. cbn [Z.eqb].
    destruct (IH s1 B P') as (s' & A' & B' & C' & C''). exists s'. split; auto. split; auto. split; congruence.
Qed.

(** ** Checks *)
Lemma mandatory_ok ts : forall l, mandatory ts l = P_OKAY -> forall id, In id l -> exists t, In t ts /\ t_id t = id /\ t_first t <> -1.
Proof.
  induction l as [|i l IH]; cbn; [tauto|]. destruct (get_tlv ts i) as [t|] eqn:G; [|discriminate]. destruct (Z.eqb_spec (t_first t) (-1)); [discriminate|].
  intros H id [->|I]; [|auto]. destruct (get_tlv_Some _ _ _ G). exists t. auto.
Qed.
Lemma mandatory_inv ts : distinct ts -> forall l, (forall id, In id l -> exists t, In t ts /\ t_id t = id /\ t_first t <> -1) -> mandatory ts l = P_OKAY.
Proof.
  intros D. induction l as [|i l IH]; intros H; auto. cbn. destruct (H i (or_introl eq_refl)) as (t & I & E & F). rewrite <- E, (get_tlv_In _ _ D I).
  destruct (Z.eqb_spec (t_first t) (-1)); [contradiction|]. apply IH. intros; apply H; now right.
Qed.
Lemma duplicates_ok ts dup : distinct ts -> forall l, duplicates ts dup l = P_OKAY -> forall t, In (t_id t) l -> In t ts -> t_first t = t_last t \/ In (t_id t) dup.
Proof.
  intros D. induction l as [|i l IH]; cbn; [tauto|]. intros H t [->|I] J.
  - rewrite (get_tlv_In _ _ D J) in H. destruct (Z.eqb_spec (t_first t) (t_last t)); auto. right.
    destruct (existsb (Z.eqb (t_id t)) dup) eqn:E; [|discriminate]. apply existsb_exists in E. destruct E as (x & X & Q). apply Z.eqb_eq in Q. now subst.
  - apply IH; auto. destruct (get_tlv ts i) as [u|]; auto. destruct (_ =? _); auto. destruct (existsb _ _); auto. discriminate.
Qed.
Lemma duplicates_inv ts dup : forall l, (forall t, In (t_id t) l -> In t ts -> t_first t = t_last t \/ In (t_id t) dup) -> duplicates ts dup l = P_OKAY.
Proof.
  induction l as [|i l IH]; intros H; auto. cbn. destruct (get_tlv ts i) as [u|] eqn:G; [|apply IH; intros; apply H; auto; now right].
  destruct (get_tlv_Some _ _ _ G) as (I & E). destruct (Z.eqb_spec (t_first u) (t_last u)); [apply IH; intros; apply H; auto; now right|].
  destruct (H u) as [Q|Q]; auto; [left; auto|contradiction|]. destruct (existsb (Z.eqb (t_id u)) dup) eqn:X; [apply IH; intros; apply H; auto; now right|].
  exfalso. assert (existsb (Z.eqb (t_id u)) dup = true) by (apply existsb_exists; exists (t_id u); split; auto; apply Z.eqb_refl). congruence.
Qed.
Lemma dup_find ty : forall l last g, find (fun g => s_id g =? ty) l = Some g -> dup_signal l ty last = Some g.
Proof. induction l as [|h l IH]; cbn; [discriminate|]. intros last g. destruct (s_id h =? ty); auto. Qed.
Lemma dup_In ty : forall l last g, dup_signal l ty last = Some g -> In g l \/ last = Some g.
Proof. induction l as [|h l IH]; cbn; auto. intros last g. destruct (s_id h =? ty); [intros [= ->]; auto|]. intros H. destruct (IH _ _ H) as [|Q]; auto. injection Q as ->. auto. Qed.

Lemma at_cons p L j id : at_ L j id -> at_ (p :: L) (j + 1) id.
Proof.
  intros (v & J). exists v. pose proof (zget_bound _ _ _ J). unfold zget in *. destruct (Z.ltb_spec j 0); [lia|]. destruct (Z.ltb_spec (j + 1) 0); [lia|]. replace (Z.to_nat (j + 1)) with (S (Z.to_nat j)) by lia. auto.
Qed.
Lemma occ_at L id : occurrences L id <> [] -> exists j, at_ L j id.
Proof.
  induction L as [|p L IH]; [now intros []|]. rewrite occ_cons. destruct (Z.eqb_spec (fst p) id) as [E|E].
  - intros _. exists 0, (snd p). unfold zget. cbn. destruct p; cbn in *; subst; reflexivity.
  - intros H. destruct (IH H) as (j & J). exists (j + 1). now apply at_cons.
Qed.
Lemma one_occ L id : (forall j k, at_ L j id -> at_ L k id -> j = k) -> (length (occurrences L id) <= 1)%nat.
Proof.
  induction L as [|p L IH]; intros H; [cbn; lia|]. rewrite occ_cons. destruct (Z.eqb_spec (fst p) id) as [E|E].
  - rewrite occ_none; [cbn; lia|]. intros j J. pose proof (at_bound _ _ _ J). apply (at_cons p) in J. assert (0 = j + 1); [|lia]. apply H; auto.
    exists (snd p). unfold zget. cbn. destruct p; cbn in *; subst; reflexivity.
  - apply IH. intros j k J K. apply (at_cons p) in J, K. pose proof (H _ _ J K). lia.
Qed.
Lemma occ_once L id : (length (occurrences L id) <= 1)%nat -> forall j k, at_ L j id -> at_ L k id -> j = k.
Proof.
  intros H. assert (forall j k, at_ L j id -> at_ L k id -> j < k -> False) as A.
  { intros j k J K Lt. pose proof (at_bound _ _ _ J). pose proof (at_bound _ _ _ K).
    rewrite <- (firstn_skipn (Z.to_nat (j + 1)) L) in H. unfold occurrences in H. rewrite filter_app, map_app, app_length in H. fold (occurrences (firstn (Z.to_nat (j + 1)) L) id) in H. fold (occurrences (skipn (Z.to_nat (j + 1)) L) id) in H.
    assert (occurrences (firstn (Z.to_nat (j + 1)) L) id <> []).
    { apply (occ_some _ _ j). destruct J as (v & J). exists v. rewrite zget_firstn. destruct (Z.ltb_spec j (Z.of_nat (Z.to_nat (j + 1)))); [auto|lia]. }
    assert (occurrences (skipn (Z.to_nat (j + 1)) L) id <> []).
    { apply (occ_some _ _ (k - j - 1)). destruct K as (v & K). exists v. rewrite zget_skipn by lia. rewrite <- K. f_equal. lia. }
    destruct (occurrences (firstn _ _) _); [congruence|]. destruct (occurrences (skipn _ _) _); [congruence|]. cbn in H. lia. }
  intros j k J K. destruct (Z.lt_trichotomy j k) as [|[|]]; auto; exfalso; eauto.
Qed.
Lemma tlv_first L t : tlv_at L t -> (t_first t <> -1 <-> occurrences L (t_id t) <> []).
Proof.
  intros [(E & _ & No)|(A & B & C)].
  - rewrite occ_none by auto. tauto.
  - pose proof (at_bound _ _ _ A). split; [|lia]. intros _. now apply (occ_some _ _ _ A).
Qed.
Lemma tlv_single L t : tlv_at L t -> (t_first t = t_last t <-> (length (occurrences L (t_id t)) <= 1)%nat).
Proof.
  intros [(E & F & No)|(A & B & C)].
  - rewrite occ_none by auto. cbn. split; [lia|congruence].
  - split.
    + intros E. apply one_occ. intros j k J K. apply C in J, K. lia.
    + intros O. exact (occ_once _ _ O _ _ A B).
Qed.
Lemma checks_ok L ids s x ty g : during L ids s -> In x xs -> In (x_id x) (q_exts s) -> find (fun g => s_id g =? ty) (x_sigs x) = Some g ->
  check_mandatory s x ty = P_OKAY -> check_duplicate s x ty = P_OKAY -> acceptable g L.
Proof.
  intros D X Act F Cm Cd. unfold check_mandatory in Cm. unfold check_duplicate in Cd. rewrite F in Cm. rewrite (dup_find _ _ None _ F) in Cd.
  pose proof (find_some _ _ F) as (Gi & _). split.
  - intros id I. destruct (mandatory_ok _ _ Cm id I) as (t & It & <- & Ft). now apply (tlv_first L t (d_tlv _ _ _ D t It)).
  - intros id I N. destruct (in_dec Z.eq_dec id (map t_id (q_tlvs s))) as [J|J].
    + apply in_map_iff in J. destruct J as (t & <- & It). apply (tlv_single L t (d_tlv _ _ _ D t It)).
      destruct (duplicates_ok _ _ (n_ids _ _ (d_sane _ _ _ D)) _ Cd t I It) as [|Q]; [auto|contradiction].
    + assert (forall p, In p L -> fst p <> id) as No.
      { intros p P E. destruct (d_exts _ _ _ D) as [Q|Q]; [apply J; rewrite <- E; auto|].
        assert (Hk : forall y, In y xs -> In (x_id y) (q_exts s) -> ~ has_tlv y id).
        { intros y Y Ya (a & Ha). destruct (proj2 (n_allowed _ _ (d_sane _ _ _ D) id a)) as (t & T1 & T2 & _); [exists y; split; [split|]; auto|]. apply J. rewrite <- T2. now apply in_map. }
        destruct (r_supp _ REG x g id X Gi I) as [H|[(y & Y & H)|H]].
        - apply (Hk x); auto.
        - apply (Hk y); auto; [apply in_firstn; auto|]. rewrite Q. apply in_or_app. left. now apply in_map.
        - destruct (d_src _ _ _ D p P) as (y & Y & Hy). rewrite E in Hy. apply (H y Y Hy). }
      rewrite occ_none; [cbn; lia|]. intros j (v & A). unfold zget in A. destruct (j <? 0); [discriminate|]. apply nth_error_In in A. apply (No _ A). reflexivity.
Qed.

(** ** Calls *)
Lemma during_shows L ids s : during L ids s -> shows (q_tlvs s) (q_values s) (wire L) L.
Proof. intros D t I. apply tlv_values; [exact (d_val _ _ _ D)|exact (d_tlv _ _ _ D t I)]. Qed.
Lemma during_lists L ids s e ty : during L ids s -> id_list (first_ext L) ids -> lists_ids (mkCall e ty (q_tlvs s) (q_values s) (wire L)) ids.
Proof.
  intros D Il. unfold lists_ids. cbn. destruct (ext_tlv s (d_sane _ _ _ D)) as (t & I & E). pose proof (during_shows _ _ _ D t I) as V. rewrite E in V.
  unfold first_ext in Il. destruct (occurrences L EXTENSIONS_TLV) as [|v l] eqn:O.
  - right. destruct Il as (odd & Q & _). split; [destruct ids; [auto|discriminate]|]. intros u U Eu. pose proof (during_shows _ _ _ D u U) as W. rewrite Eu, O in W. inversion W. auto.
  - left. exists t, v, l. auto.
Qed.
Context (cb : oracle) (POL : polite xs cb).
Lemma polite_set L ids s e ty : during L ids s -> id_list (first_ext L) ids ->
  In UpdateExt (fst (cb (q_calls s ++ [mkCall e ty (q_tlvs s) (q_values s) (wire L)]))) -> set_ok ids.
Proof. intros D Il U. exact (POL _ _ ids U (during_lists _ _ _ e ty D Il)). Qed.

Lemma call_processing_ok L ids s x ty : during L ids s -> id_list (first_ext L) ids ->
  exists r s', call_processing xs cb s (wire L) x ty = Some (r, s') /\ (r = 0 \/ r = -1) /\ during L ids s' /\ q_out s' = q_out s /\
    match find (fun g => s_id g =? ty) (x_sigs x) with
    | Some g => if s_proc g then q_calls s' = q_calls s ++ [mkCall (x_id x) ty (q_tlvs s) (q_values s) (wire L)] else r = 0 /\ s' = s
    | None => r = 0 /\ s' = s
    end.
Proof.
  intros D Il. unfold call_processing. destruct (find _ (x_sigs x)) as [g|]; [|exists 0, s; auto 6]. destruct (s_proc g); [|exists 0, s; auto 6].
  pose proof (polite_set L ids s (x_id x) ty D Il) as P. set (c := mkCall _ _ _ _ _) in *. change (q_calls (add_call s c)) with (q_calls s ++ [c]).
  destruct (cb (q_calls s ++ [c])) as [l r]. cbn [fst] in P.
  destruct (act_ok L ids Il l (add_call s c) (during_call _ _ _ c D) P) as (s' & A & B & C & E). rewrite A. cbn [Z.eqb andb].
  exists (if r =? 0 then P_OKAY else -1), s'. split; auto. split; [destruct (r =? 0); auto|]. auto.
Qed.
Lemma handle_extension_ok L ids s x ty : In x xs -> during L ids s -> id_list (first_ext L) ids ->
  exists r s' new, handle_extension xs cb s (wire L) x ty = Some (r, s') /\ during L ids s' /\ q_out s' = q_out s /\
    q_calls s' = q_calls s ++ new /\ Forall (called_for xs ty L) new /\ (new <> [] -> In (x_id x) (q_exts s)).
Proof.
  intros X D Il. unfold handle_extension.
  assert (NO : forall r : Z, exists (r' : Z) (s' : sess) (new : list call), Some (r, s) = Some (r', s') /\ during L ids s' /\ q_out s' = q_out s /\ q_calls s' = q_calls s ++ new /\ Forall (called_for xs ty L) new /\ (new <> [] -> In (x_id x) (q_exts s))).
  { intros r. exists r, s, []. rewrite app_nil_r. split; auto. split; auto. split; auto. split; auto. split; [auto|now intros []]. }
  destruct (existsb (Z.eqb (x_id x)) (q_exts s)) eqn:Ac; [|apply NO].
  apply existsb_exists in Ac. destruct Ac as (e & Ac & Q). apply Z.eqb_eq in Q. subst e.
  destruct (Z.eqb_spec (check_mandatory s x ty) 0) as [Cm|]; [|apply NO]. destruct (Z.eqb_spec (check_duplicate s x ty) 0) as [Cd|]; [|apply NO].
  destruct (call_processing_ok L ids s x ty D Il) as (r & s' & A & B & C & E & F). rewrite A.
  destruct (find (fun g => s_id g =? ty) (x_sigs x)) as [g|] eqn:G.
  2: { destruct F as (-> & ->). apply NO. }
  destruct (s_proc g) eqn:Pg.
  2: { destruct F as (-> & ->). apply NO. }
  exists r, s', [mkCall (x_id x) ty (q_tlvs s) (q_values s) (wire L)]. split; auto. split; auto. split; auto. split; auto. split; [|auto].
  constructor; [|constructor]. split; [auto|]. split; [auto|]. split; [exact (during_shows _ _ _ D)|]. exists x, g. split; auto. split; auto. pose proof (find_some _ _ G) as (G1 & G2). apply Z.eqb_eq in G2.
  split; [split; auto|]. exact (checks_ok L ids s x ty g D X Ac G Cm Cd).
Qed.
Lemma handle_all_ok L ids ty : id_list (first_ext L) ids -> forall l s, (forall x, In x l -> In x xs) -> during L ids s ->
  exists r s' new, handle_all xs cb s (wire L) l ty = Some (r, s') /\ during L ids s' /\ q_out s' = q_out s /\
    q_calls s' = q_calls s ++ new /\ Forall (called_for xs ty L) new.
Proof.
  intros Il. induction l as [|x l IH]; intros s Sub D.
  - exists 0, s, []. rewrite app_nil_r. cbn. auto 6.
  - cbn [handle_all]. destruct (handle_extension_ok L ids s x ty (Sub x (or_introl eq_refl)) D Il) as (r & s1 & n1 & A & B & C & E & F & _). rewrite A.
    destruct (r =? 0); [|exists r, s1, n1; auto 6].
    destruct (IH s1 ltac:(intros; apply Sub; now right) B) as (r2 & s2 & n2 & A2 & B2 & C2 & E2 & F2). exists r2, s2, (n1 ++ n2). split; auto. split; auto. split; [congruence|]. split; [rewrite E2, E, app_assoc; auto|]. apply Forall_app; auto.
Qed.

(** ** Signals *)
Lemma key_exact ts ts' es : map key ts' = map key ts -> exact ts es -> exact ts' es.
Proof.
  intros K E id a. rewrite <- (E id a). clear E. split.
  - intros (t & I & A & B). apply (in_map key) in I. rewrite K in I. apply in_map_iff in I. destruct I as (u & U & J). unfold key in U. injection U as U1 U2 U3. exists u. rewrite U1, U2, U3. auto.
  - intros (t & I & A & B). apply (in_map key) in I. rewrite <- K in I. apply in_map_iff in I. destruct I as (u & U & J). unfold key in U. injection U as U1 U2 U3. exists u. rewrite U1, U2, U3. auto.
Qed.
Lemma sane_parsed s s' : sane xs s -> same_rest s s' -> map key (q_tlvs s') = map key (q_tlvs s) -> 0 <= q_max s' <= zlen (q_values s') -> sane xs s'.
Proof.
  intros Sn (R1 & R2 & R3 & R4 & R5) K M. constructor.
  - rewrite (key_ids _ _ K). exact (n_ids _ _ Sn).
  - exact M.
  - rewrite R3. exact (n_exts _ _ Sn).
  - unfold active. rewrite R3. exact (key_exact _ _ _ K (sane_exact s Sn)).
Qed.
Lemma sane_next s r : sane xs s -> sane xs (set_next s r).
Proof. intros []. constructor; auto. Qed.
Lemma sane_restrict s r : sane xs s -> sane xs (set_restrict s r).
Proof. intros []. constructor; auto. Qed.
Lemma sane_term s : sane xs s -> sane xs (send_terminate s) /\ q_calls (send_terminate s) = q_calls s.
Proof. intros Sn. unfold send_terminate. destruct (_ || _); auto. split; auto. destruct Sn. constructor; auto. Qed.

Lemma during_parsed s s' L ids : sane xs s -> same_rest s s' -> map key (q_tlvs s') = map key (q_tlvs s) -> Forall (fits (q_tlvs s)) L ->
  pinv (q_tlvs s') (q_values s') (q_max s') L -> during L ids s'.
Proof.
  intros Sn R K F P. pose proof (zlen_nonneg L). pose proof (i_cap _ _ _ _ P). rewrite Forall_forall in F. constructor.
  - apply (sane_parsed s); auto. lia.
  - exact (i_val _ _ _ _ P).
  - exact (i_tlv _ _ _ _ P).
  - intros p I. destruct (F p I) as (t & T & E & _). destruct (proj1 (n_allowed _ _ Sn (t_id t) (t_min t, t_max t))) as (x & (X & _) & Q); [exists t; auto|]. exists x. split; auto. rewrite <- E. exists (t_min t, t_max t). auto.
  - left. intros p I. destruct (F p I) as (t & T & E & _). rewrite (key_ids _ _ K), <- E. now apply in_map.
Qed.

Lemma process_tlvs_ok s ty len ptr : sane xs s -> all_bytes ptr -> 0 <= len <= zlen ptr -> len < 65536 ->
  exists r s' new, process_tlvs xs cb s ty len ptr = Some (r, s') /\ sane xs s' /\ q_calls s' = q_calls s ++ new /\
    (new <> [] -> exists L, readable (q_tlvs s) ptr len L /\ Forall (called_for xs ty L) new) /\
    ((forall L, ~ readable (q_tlvs s) ptr len L) -> r <> P_OKAY /\ r <> P_TERMINATED /\ q_restrict s' = q_restrict s /\ q_exts s' = q_exts s).
Proof.
  intros Sn AB LB L16. unfold process_tlvs.
  destruct (parse_tlvstream_ok s ptr len (n_ids _ _ Sn) (n_max _ _ Sn) AB LB L16) as (r & s1 & P1 & P2 & P3 & P4 & P5 & P6). rewrite P1.
  destruct P6 as [(-> & L & Rd & Pi)|(Nr & No)].
  - rewrite (proj1 Rd). change (P_OKAY =? 0) with true. cbn match.
    assert (Al : all_bytes (first_ext L)).
    { unfold first_ext. destruct (occurrences L EXTENSIONS_TLV) as [|v l] eqn:O; [constructor|]. assert (I : In v (occurrences L EXTENSIONS_TLV)) by (rewrite O; now left).
      unfold occurrences in I. apply in_map_iff in I. destruct I as (p & <- & I). apply filter_In in I. destruct Rd as (_ & W & _). rewrite Forall_forall in W. apply W. tauto. }
    destruct (id_list_ex _ Al) as (ids & Il). pose proof (during_parsed s s1 L ids Sn P2 P3 (proj2 (proj2 Rd)) Pi) as D.
    destruct (handle_all_ok L ids ty Il xs s1 ltac:(auto) D) as (r2 & s2 & new & A & B & C & E & F). exists r2, s2, new. split; auto. split; [exact (d_sane _ _ _ B)|]. split; [rewrite E; f_equal; apply P2|].
    split; [exists L; auto|]. intros H. destruct (H L Rd).
  - exists r, s1, []. rewrite app_nil_r. destruct (Z.eqb_spec r 0) as [E|_]; [destruct (Nr E)|]. split; auto. split; [apply (sane_parsed s); auto|]. split; [apply P2|]. split; [now intros []|]. intros _. split; auto. split; auto. split; apply P2.
Qed.

Lemma signal_split ptr : all_bytes ptr -> 4 <= zlen ptr -> exists ty len, get16 ptr 0 = Some ty /\ get16 ptr 2 = Some len /\ is_u16 ty /\ is_u16 len /\
  ptr = n16 ty ++ n16 len ++ skipn 4 ptr /\ all_bytes (skipn 4 ptr) /\ zlen (skipn 4 ptr) = zlen ptr - 4.
Proof.
  intros A L. destruct (four ptr L) as (a & b & c & d & r & ->). inversion A as [|? ? Ba A1]; subst. inversion A1 as [|? ? Bb A2]; subst. inversion A2 as [|? ? Bc A3]; subst. inversion A3 as [|? ? Bd A4]; subst.
  destruct (n16_bytes a b Ba Bb) as (N1 & U1). destruct (n16_bytes c d Bc Bd) as (N2 & U2).
  exists (256 * a + b), (256 * c + d). rewrite N1, N2. cbn [skipn]. split; [reflexivity|]. split; [reflexivity|]. split; auto. split; auto. split; auto. split; auto. rewrite !zlen_cons. lia.
Qed.
Lemma process_signal_ok s ptr udp : sane xs s -> all_bytes ptr ->
  exists r s' new, process_signal xs cb s ptr (zlen ptr) udp = Some (r, s') /\ sane xs s' /\ (r = -1 \/ r = 0 \/ 4 <= r <= zlen ptr) /\ q_calls s' = q_calls s ++ new /\
    (new <> [] -> exists ty L rest, ptr = wire_signal ty L ++ rest /\ is_u16 ty /\ is_u16 (zlen (wire L)) /\ Forall wf_tlv L /\ Forall (fits (q_tlvs s)) L /\
                  expected s (sig_type udp ty) /\ Forall (called_for xs (sig_type udp ty) L) new).
Proof.
  intros Sn AB. unfold process_signal. apply (fun s => sane_next s KEEP_RESTRICTION) in Sn. set (s0 := set_next s KEEP_RESTRICTION) in *.
  assert (NO : forall (r : Z) s', sane xs s' -> q_calls s' = q_calls s -> (r = -1 \/ r = 0 \/ 4 <= r <= zlen ptr) -> exists r' s2 new, Some (r, s') = Some (r', s2) /\ sane xs s2 /\ (r' = -1 \/ r' = 0 \/ 4 <= r' <= zlen ptr) /\ q_calls s2 = q_calls s ++ new /\
    (new <> [] -> exists ty L rest, ptr = wire_signal ty L ++ rest /\ is_u16 ty /\ is_u16 (zlen (wire L)) /\ Forall wf_tlv L /\ Forall (fits (q_tlvs s)) L /\ expected s (sig_type udp ty) /\ Forall (called_for xs (sig_type udp ty) L) new)).
  { intros r s' Sn' Q B. exists r, s', []. rewrite app_nil_r. split; auto. split; auto. split; auto. split; auto. now intros []. }
  destruct (Z.ltb_spec (zlen ptr) 4); [apply NO; auto|].
  destruct (signal_split ptr AB ltac:(lia)) as (ty & len & G1 & G2 & U1 & U2 & Sp & A' & L'). rewrite G1, G2. fold (sig_type udp ty).
  destruct (Z.ltb_spec (zlen ptr) (len + 4)); [apply NO; auto|]. unfold is_u16 in U2.
  destruct (negb _ && negb _) eqn:Re; [apply NO; auto|].
  assert (Ex : expected s (sig_type udp ty)).
  { unfold expected. apply andb_false_iff in Re. rewrite !negb_false_iff, !Z.eqb_eq in Re. exact Re. }
  destruct (process_tlvs_ok s0 (sig_type udp ty) len (skipn 4 ptr) Sn A' ltac:(lia) ltac:(lia)) as (r & s1 & new & P1 & P2 & P3 & P4 & _). rewrite P1.
  assert (N : new <> [] -> exists ty L rest, ptr = wire_signal ty L ++ rest /\ is_u16 ty /\ is_u16 (zlen (wire L)) /\ Forall wf_tlv L /\ Forall (fits (q_tlvs s)) L /\ expected s (sig_type udp ty) /\ Forall (called_for xs (sig_type udp ty) L) new).
  { intros Hn. destruct (P4 Hn) as (L & (W1 & W2 & W3) & W4). exists ty, L, (skipn (Z.to_nat len) (skipn 4 ptr)).
    assert (zlen (wire L) = len) as EL by (rewrite <- W1, zlen_firstn; lia). split; [|rewrite EL; auto 7].
    unfold wire_signal. rewrite EL, <- W1, <- !app_assoc, firstn_skipn. exact Sp. }
  destruct (sane_term s1 P2) as (T1 & T2).
  destruct (r =? P_TERMINATED) eqn:E1.
  { apply Z.eqb_eq in E1. exists r, s1, new. auto 6. }
  destruct (negb (r =? P_OKAY)); [|destruct (negb (q_next s1 =? KEEP_RESTRICTION))].
  - exists (len + 4), (send_terminate s1), new. split; auto. split; auto. split; [lia|]. split; [rewrite T2; auto|auto].
  - exists (len + 4), (set_restrict s1 (q_next s1)), new. split; auto. split; [apply sane_restrict; auto|]. split; [lia|]. auto.
  - exists (len + 4), s1, new. split; auto. split; auto. split; [lia|]. auto.
Qed.

(** what can be said about the calls for a whole buffer *)
Definition called_in (udp : bool) (buf : bytes) (c : call) : Prop :=
  exists pre ty L rest, buf = pre ++ wire_signal ty L ++ rest /\ Forall wf_tlv L /\ called_for xs (sig_type udp ty) L c.
Lemma buffer_loop_ok buf udp : all_bytes buf -> forall fuel s offset, sane xs s -> 0 <= offset <= zlen buf -> zlen buf - offset < Z.of_nat fuel ->
  exists r s' new, buffer_loop fuel xs cb s buf (zlen buf - offset) offset udp = Some (r, s') /\ sane xs s' /\ (r = -1 \/ 0 <= r <= zlen buf) /\
    q_calls s' = q_calls s ++ new /\ Forall (called_in udp buf) new.
Proof.
  intros AB. induction fuel as [|fuel IH]; intros s offset Sn O F; [lia|]. cbn [buffer_loop].
  destruct (Z.ltb_spec 0 (zlen buf - offset)).
  2: { exists offset, s, []. rewrite app_nil_r. auto 7. }
  assert (A' : all_bytes (skipn (Z.to_nat offset) buf)). { unfold all_bytes in *. rewrite <- (firstn_skipn (Z.to_nat offset) buf) in AB. apply Forall_app in AB. tauto. }
  assert (L' : zlen (skipn (Z.to_nat offset) buf) = zlen buf - offset) by (rewrite zlen_skipn; lia).
  destruct (process_signal_ok s (skipn (Z.to_nat offset) buf) udp Sn A') as (r & s1 & new & P1 & P2 & P3 & P4 & P5). rewrite L' in P1, P3. rewrite P1.
  assert (N : Forall (called_in udp buf) new).
  { destruct new as [|c0 new]; [constructor|]. destruct P5 as (ty & L & rest & Q1 & _ & _ & Q2 & _ & _ & Q5); [discriminate|]. rewrite Forall_forall in Q5 |- *. intros c C. exists (firstn (Z.to_nat offset) buf), ty, L, rest. split; [rewrite <- Q1, firstn_skipn; auto|]. split; [exact Q2|]. apply Q5. exact C. }
  destruct (Z.ltb_spec r 0); [exists r, s1, new; split; [auto|]; split; [auto|]; split; [lia|auto]|].
  destruct (Z.eqb_spec r 0); [exists offset, s1, new; split; [auto|]; split; [auto|]; split; [lia|auto]|].
  destruct (q_restrict s1 =? KILL_SESSION); [exists offset, s1, new; split; [auto|]; split; [auto|]; split; [lia|auto]|].
  replace (zlen buf - offset - r) with (zlen buf - (offset + r)) by lia.
  destruct (IH s1 (offset + r) P2 ltac:(lia) ltac:(lia)) as (r2 & s2 & n2 & R1 & R2 & R3 & R4 & R5). exists r2, s2, (new ++ n2). split; auto. split; auto. split; auto. split; [rewrite R4, P4, app_assoc; auto|]. apply Forall_app; auto.
Qed.
Lemma process_buffer_ok s buf udp : sane xs s -> all_bytes buf ->
  exists r s' new, process_buffer xs cb s buf (zlen buf) udp = Some (r, s') /\ sane xs s' /\ (r = -1 \/ 0 <= r <= zlen buf) /\
    q_calls s' = q_calls s ++ new /\ Forall (called_in udp buf) new.
Proof.
  intros Sn AB. unfold process_buffer. pose proof (zlen_nonneg buf). pose proof (buffer_loop_ok buf udp AB (S (Z.to_nat (zlen buf))) s 0 Sn ltac:(lia) ltac:(lia)) as H0. rewrite Z.sub_0_r in H0. exact H0.
Qed.
Lemma tcp_run_ok : forall chunks s inp, sane xs s -> all_bytes inp -> Forall all_bytes chunks ->
  exists r, tcp_run xs cb s inp chunks = Some r /\ match r with inl s' => sane xs s' | inr (s', rest) => sane xs s' /\ all_bytes rest end.
Proof.
  induction chunks as [|c cs IH]; intros s inp Sn A F; [exists (inr (s, inp)); auto|]. pose proof (Forall_inv F) as Fc; pose proof (Forall_inv_tail F) as Fs. cbn [tcp_run]. unfold process_tcp.
  assert (A' : all_bytes (inp ++ c)) by (apply Forall_app; auto).
  destruct (process_buffer_ok s (inp ++ c) false Sn A') as (r & s1 & new & P1 & P2 & P3 & _). rewrite P1.
  destruct (r <? 0); [eexists; split; [reflexivity|auto]|]. destruct (q_restrict s1 =? KILL_SESSION); [eexists; split; [reflexivity|auto]|].
  apply IH; auto. unfold all_bytes in *. rewrite <- (firstn_skipn (Z.to_nat r) (inp ++ c)) in A'. apply Forall_app in A'. tauto.
Qed.

(** ** A new session *)
Lemma session_add_ok restrict : exists s, session_add xs restrict = Some (0, s) /\ sane xs s /\ q_restrict s = restrict /\ q_calls s = [] /\ q_exts s = map x_id xs.
Proof.
  unfold session_add. pose proof (r_count _ REG) as C. destruct (Z.leb_spec (zlen xs) (BASE_COUNT + EXT_COUNT)); [|unfold BASE_COUNT, EXT_COUNT in *; lia].
  set (s0 := mkSess _ _ _ _ _ _ _ _).
  destruct (update_allowed_ok s0) as (ts & A & B & D & _).
  - constructor.
  - intros t [].
  - intros e I. cbn in I. apply in_map_iff in I. destruct I as (x & E & I). eauto.
  - exists (set_exts s0 ts (q_exts s0)). split; auto. split; [|cbn; auto]. constructor; auto.
    + cbn. rewrite zlen_repeat. unfold VALUE_STEP. lia.
    + change (q_exts (set_exts s0 ts (q_exts s0))) with (map x_id xs). exists (map x_id (skipn 3 xs)). split; [unfold base; rewrite <- map_app, firstn_skipn; auto|]. split; [unfold zlen in *; rewrite map_length, skipn_length; lia|].
      intros e I. apply in_map_iff in I. destruct I as (x & E & I). pose proof (r_more _ REG x I). split; [lia|]. exists x. split; auto. rewrite <- (firstn_skipn 3 xs). apply in_or_app. auto.
Qed.
End Session.
