(** Proofs about link ids and the text of neighbor keys. *)
From Verif Require Import Base BufLemmas SplitLemmas NetaddrModel NetaddrSpec NetaddrTextProofs StrBase StringModel StringSpec StringProofs StringArrProofs StringProps
  L2DataModel L2DataSpec L2DataProofs.

Lemma na_eqb_eq a b : na_eqb a b = true <-> a = b.
Proof.
  unfold na_eqb. destruct a as [aa at_ ap], b as [ba bt bp]; cbn [na_addr na_type na_plen]. rewrite !andb_true_iff, !Z.eqb_eq, str_eqb_eq.
  split; [intros [[-> ->] ->]; reflexivity|intros H; injection H as -> -> ->; auto].
Qed.
Lemma na_eqb_refl a : na_eqb a a = true.
Proof. apply na_eqb_eq; reflexivity. Qed.
Lemma na_eqb_spec a b : reflect (a = b) (na_eqb a b).
Proof. destruct (na_eqb a b) eqn:E; constructor; [apply na_eqb_eq, E|intros ->; rewrite na_eqb_refl in E; discriminate]. Qed.

(** ** link ids *)
Definition ctr (t : list (netaddr * Z)) (m : netaddr) : Z := match lid_find t m with Some n => n | None => 1 end.
Lemma lid_find_filter t m m' : m <> m' -> lid_find (filter (fun e => negb (na_eqb (fst e) m)) t) m' = lid_find t m'.
Proof.
  intros N. induction t as [|[a n] t IH]; [reflexivity|]. cbn [filter fst lid_find]. destruct (na_eqb_spec a m) as [->|Na]; cbn [negb].
  - destruct (na_eqb_spec m m'); [easy|exact IH].
  - cbn [lid_find]. rewrite IH. reflexivity.
Qed.
Lemma ctr_set t m n m' : ctr (lid_set t m n) m' = if na_eqb m m' then n else ctr t m'.
Proof.
  unfold ctr, lid_set. cbn [lid_find]. destruct (na_eqb_spec m m') as [->|N]; [reflexivity|]. rewrite lid_find_filter by exact N. reflexivity.
Qed.

Lemma ctr_low_step c n : (u32 (c + 1) + n) mod 16777216 = (c + (1 + n)) mod 16777216.
Proof. unfold u32. zdm; lia. Qed.
Lemma requests_cons m r rs : requests m (r :: rs) = (if lo_lid (fst r) && na_eqb (snd r) m then 1 else 0) + requests m rs.
Proof. unfold requests. cbn [filter]. destruct (_ && _); [rewrite zlen_cons|]; lia. Qed.

Definition key_of (o : lorigin) (m : netaddr) (c : Z) : nkey :=
  mkKey m 4 (Z.land (lo_index o) 255 :: be_enc 3 c ++ repeat 0 12).
Lemma lids_none rs : forall t n o m, nth_error rs n = Some (o, m) -> lo_lid o = false \/ is_mac m = false ->
  nth_error (lids t rs) n = Some None.
Proof.
  induction rs as [|[o1 m1] rs IH]; intros t n o m N H; [destruct n; discriminate|].
  destruct n as [|n]; cbn [nth_error] in *.
  - injection N as -> ->. cbn [lids]. unfold generate_lid. destruct H as [-> | ->]; [reflexivity|]. destruct (lo_lid o); reflexivity.
  - cbn [lids]. destruct (generate_lid t o1 m1) as [[k t']|]; cbn [nth_error]; eapply IH; eauto.
Qed.

Lemma be3_mod c : be_enc 3 c = be_enc 3 (c mod 16777216).
Proof.
  rewrite (Z.div_mod c 16777216) at 1 by lia. rewrite (be_enc_mod 3 (c mod 16777216) (c / 16777216)).
  f_equal. change (256 ^ Z.of_nat 3) with 16777216. ring.
Qed.
Lemma key_of_inj o m c o' m' c' : key_of o m c = key_of o' m' c' -> m = m' /\ c mod 16777216 = c' mod 16777216.
Proof.
  unfold key_of. intros H. injection H as -> _ E. split; [reflexivity|].
  apply (be_enc_inj 3); [change (256 ^ Z.of_nat 3) with 16777216; zdm; lia|change (256 ^ Z.of_nat 3) with 16777216; zdm; lia|].
  rewrite <- !be3_mod. unfold be_enc; cbn [app]. congruence.
Qed.
Lemma requests_app m a b : requests m (a ++ b) = requests m a + requests m b.
Proof. unfold requests. rewrite filter_app, zlen_app. reflexivity. Qed.
Lemma requests_nonneg m a : 0 <= requests m a.
Proof. unfold requests. apply zlen_nonneg. Qed.

Lemma lids_nth' rs : forall t n o m, nth_error rs n = Some (o, m) -> lo_lid o = true -> is_mac m = true ->
  exists c, nth_error (lids t rs) n = Some (Some (key_of o m c)) /\
    c mod 16777216 = (ctr t m + requests m (firstn n rs)) mod 16777216.
Proof.
  induction rs as [|[o1 m1] rs IH]; intros t n o m N L M; [destruct n; discriminate|].
  destruct n as [|n]; cbn [nth_error firstn] in *.
  - injection N as -> ->. exists (ctr t m). cbn [lids]. unfold generate_lid. rewrite L, M. cbn [negb]. split; [reflexivity|].
    unfold requests, zlen. cbn. f_equal. lia.
  - rewrite requests_cons. cbn [fst snd lids]. unfold generate_lid. destruct (lo_lid o1) eqn:L1; cbn [negb andb].
    + destruct (is_mac m1) eqn:M1; cbn [negb nth_error].
      * fold (ctr t m1).
        destruct (IH (lid_set t m1 (u32 (ctr t m1 + 1))) n o m N L M) as (c & E & C).
        exists c. split; [exact E|]. rewrite C, ctr_set. destruct (na_eqb_spec m1 m) as [->|NE]; [apply ctr_low_step|reflexivity].
      * destruct (IH t n o m N L M) as (c & E & C). exists c. split; [exact E|]. rewrite C.
        destruct (na_eqb_spec m1 m) as [->|NE]; [congruence|reflexivity].
    + cbn [nth_error]. destruct (IH t n o m N L M) as (c & E & C). exists c. split; [exact E|exact C].
Qed.

Lemma lids_len rs : forall t, length (lids t rs) = length rs.
Proof. induction rs as [|[o m] rs IH]; intros t; [reflexivity|]. cbn [lids]. destruct (generate_lid t o m) as [[k t']|]; cbn; rewrite IH; reflexivity. Qed.
Lemma lids_distinct t rs i j k k' : (i < j)%nat -> nth_error (lids t rs) i = Some (Some k) -> nth_error (lids t rs) j = Some (Some k') ->
  k = k' -> 16777216 <= requests (k_addr k) (firstn (j - i) (skipn i rs)).
Proof.
  intros IJ Ki Kj <-.
  assert (exists o m, nth_error rs i = Some (o, m)) as (o & m & Ni).
  { destruct (nth_error rs i) as [[o m]|] eqn:E; [eauto|]. apply nth_error_None in E. rewrite <- (lids_len rs t) in E. apply nth_error_None in E. congruence. }
  assert (exists o m, nth_error rs j = Some (o, m)) as (o' & m' & Nj).
  { destruct (nth_error rs j) as [[o' m']|] eqn:E; [eauto|]. apply nth_error_None in E. rewrite <- (lids_len rs t) in E. apply nth_error_None in E. congruence. }
  destruct (lo_lid o) eqn:L; [|rewrite (lids_none rs t i o m Ni (or_introl L)) in Ki; discriminate].
  destruct (is_mac m) eqn:M; [|rewrite (lids_none rs t i o m Ni (or_intror M)) in Ki; discriminate].
  destruct (lo_lid o') eqn:L'; [|rewrite (lids_none rs t j o' m' Nj (or_introl L')) in Kj; discriminate].
  destruct (is_mac m') eqn:M'; [|rewrite (lids_none rs t j o' m' Nj (or_intror M')) in Kj; discriminate].
  destruct (lids_nth' rs t i o m Ni L M) as (c & E & C). destruct (lids_nth' rs t j o' m' Nj L' M') as (c' & E' & C').
  rewrite E in Ki. rewrite E' in Kj. injection Ki as Ki. injection Kj as Kj.
  destruct (key_of_inj o m c o' m' c') as [<- Q]; [congruence|]. rewrite <- Ki. cbn [key_of k_addr].
  assert (firstn j rs = firstn i rs ++ firstn (j - i) (skipn i rs)) as SP.
  { rewrite <- (firstn_skipn i (firstn j rs)). rewrite firstn_firstn. replace (Nat.min i j) with i by lia. f_equal.
    rewrite skipn_firstn_comm. reflexivity. }
  rewrite SP, requests_app in C'.
  assert (1 <= requests m (firstn (j - i) (skipn i rs))) as POS.
  { destruct (nth_error_split rs i Ni) as (l1 & l2 & -> & LL). rewrite skipn_app, <- LL, skipn_all, Nat.sub_diag. cbn [app skipn].
    destruct (j - length l1)%nat as [|q] eqn:EQ; [lia|]. cbn [firstn]. rewrite requests_cons. cbn [fst snd]. rewrite L, na_eqb_refl. cbn [andb].
    pose proof (requests_nonneg m (firstn q l2)). lia. }
  rewrite Q, C' in C. clear - C POS. pose proof (Z.mod_pos_bound 0 1). zdm. lia.
Qed.

(** ** text *)
Definition akey (c : Z) : Prop := hexlow c \/ c = 58 \/ c = 45 \/ c = 47.
Lemma akey_no c : akey c -> c <> 0 /\ c <> 44.
Proof. unfold akey, hexlow. lia. Qed.
Lemma mac_text_facts n4 n6 p4 p6 a : na_wf a -> canonical a -> is_mac a = true -> na_plen a <= maxprefix a ->
  exists t, to_prefixstring n4 n6 a false = Some t /\ from_string p4 p6 t = Some a /\ Forall akey t /\ zlen t <= 27.
Proof.
  intros W C M P. assert (na_type a = AF_MAC48 \/ na_type a = AF_EUI64) as T.
  { unfold is_mac in M. apply orb_true_iff in M. rewrite !Z.eqb_eq in M. exact M. }
  assert (exists t, to_prefixstring n4 n6 a false = Some t /\ from_string p4 p6 t = Some a) as (t & E & F).
  { destruct T as [T|T].
    - apply mac_string_roundtrip; auto. unfold maxprefix in P. rewrite T in P. exact P.
    - apply eui64_string_roundtrip; auto. unfold maxprefix in P. rewrite T in P. exact P. }
  exists t. split; [exact E|]. split; [exact F|].
  destruct W as (Wl & Wb & Wt & Wp).
  assert (forall sep n, sep = 58 \/ sep = 45 -> (n = 6 \/ n = 8)%nat ->
    Forall akey (mac_to_string NETADDR_STR_LEN (firstn n (na_addr a)) sep) /\ zlen (mac_to_string NETADDR_STR_LEN (firstn n (na_addr a)) sep) <= 23) as MT.
  { intros sep n S Nn. assert (zlen (firstn n (na_addr a)) = Z.of_nat n) as LN by (unfold zlen; rewrite firstn_length, Wl; lia).
    assert ((sep =? 0) = false) as S0 by lia.
    rewrite mac_to_string_text by (rewrite S0, LN; unfold NETADDR_STR_LEN; lia). split.
    - eapply Forall_impl; [|apply mac_text_chars; apply Forall_firstn; exact Wb]. intros c [H|[_ ->]]; unfold akey; [auto|]. destruct S; auto.
    - rewrite mac_text_len; [rewrite S0, LN; lia|]. intros Q. rewrite Q in LN. unfold zlen in LN. cbn in LN. lia. }
  destruct (dec_str_facts (na_plen a) Wp) as (_ & _ & _ & D3 & D).
  assert (Forall akey (dec_str (na_plen a))) as DA.
  { apply Forall_forall. intros c I. rewrite forallb_forall in D. specialize (D c I). unfold isdigit in D. unfold akey, hexlow. lia. }
  assert (forall b, Forall akey b -> zlen b <= 23 ->
    Forall akey (if false || (na_plen a <? maxprefix a) then b ++ 47 :: dec_str (na_plen a) else b) /\
    zlen (if false || (na_plen a <? maxprefix a) then b ++ 47 :: dec_str (na_plen a) else b) <= 27) as FIN.
  { intros b Fb Lb. destruct (false || _).
    - split; [apply Forall_app; split; [exact Fb|]; constructor; [unfold akey; auto|exact DA]|].
      rewrite zlen_app, zlen_cons. unfold zlen at 2. lia.
    - split; [exact Fb|lia]. }
  unfold to_prefixstring in E. destruct T as [T|T]; rewrite T in E; cbn [Z.eqb AF_INET AF_INET6 AF_MAC48 AF_EUI64 AF_UUID AF_MAX Pos.eqb orb] in E;
    change (AF_MAC48 =? AF_INET) with false in E; change (AF_MAC48 =? AF_INET6) with false in E; change (AF_MAC48 =? AF_MAC48) with true in E;
    change (AF_EUI64 =? AF_INET) with false in E; change (AF_EUI64 =? AF_INET6) with false in E; change (AF_EUI64 =? AF_MAC48) with false in E; change (AF_EUI64 =? AF_EUI64) with true in E;
    cbn [orb] in E; injection E as <-.
  - destruct (MT 58 6%nat (or_introl eq_refl) (or_introl eq_refl)) as [Q1 Q2]. apply FIN; assumption.
  - destruct (MT 45 8%nat (or_intror eq_refl) (or_intror eq_refl)) as [Q1 Q2]. apply FIN; assumption.
Qed.

Lemma split_comma_app a r : Forall (fun c => c <> 44) a -> split_comma (a ++ 44 :: r) = Some (a, r).
Proof.
  induction a as [|c a IH]; intros F; cbn [app split_comma]; [reflexivity|].
  pose proof (Forall_inv F) as C. apply Forall_inv_tail in F. destruct (Z.eqb_spec c 44); [easy|]. rewrite IH by exact F. reflexivity.
Qed.
Lemma split_comma_none a : Forall (fun c => c <> 44) a -> split_comma a = None.
Proof.
  induction a as [|c a IH]; intros F; cbn [split_comma]; [reflexivity|].
  pose proof (Forall_inv F) as C. apply Forall_inv_tail in F. destruct (Z.eqb_spec c 44); [easy|]. rewrite IH by exact F. reflexivity.
Qed.
Lemma split_comma_some s a r : split_comma s = Some (a, r) -> s = a ++ 44 :: r /\ Forall (fun c => c <> 44) a.
Proof.
  revert a. induction s as [|c s IH]; intros a E; [discriminate|]. cbn [split_comma] in E. destruct (Z.eqb_spec c 44) as [->|N].
  - injection E as <- <-. split; [reflexivity|constructor].
  - destruct (split_comma s) as [[a' r']|] eqn:Q; [|discriminate]. injection E as <- ->. destruct (IH a' eq_refl) as [-> F]. split; [reflexivity|constructor; assumption].
Qed.

(** copy of the address part *)
Lemma strncpy_prefix a r : no_nul a -> text (a ++ r) = a ++ text r.
Proof. induction a as [|c a IH]; intros N; [reflexivity|]. cbn [app text]. pose proof (Forall_inv N) as C. cbn in C. destruct (Z.eqb_spec c 0); [easy|]. rewrite IH by (exact (Forall_inv_tail N)). reflexivity. Qed.
Lemma addr_copy a r : no_nul a -> zlen a < NETADDR_STR_LEN ->
  exists nbuf, strscpy (repeat 0 (Z.to_nat NETADDR_STR_LEN)) 0 (Some ((a ++ r) ++ [0])) (zlen a + 1) = Some nbuf /\
    strlen nbuf 0 = Some (zlen a) /\ firstn (Z.to_nat (zlen a)) nbuf = a.
Proof.
  intros N L. pose proof (zlen_nonneg a).
  destruct (C28_strscpy (repeat 0 (Z.to_nat NETADDR_STR_LEN)) ((a ++ r) ++ [0]) (zlen a + 1)) as (nbuf & E & H1 & H2 & (z & H3) & H4).
  - unfold zlen at 3. rewrite repeat_length. unfold NETADDR_STR_LEN in *. lia.
  - left. apply in_or_app. right. left. reflexivity.
  - exists nbuf. split; [exact E|]. rewrite <- app_assoc, strncpy_prefix in H3 by exact N.
    replace (zlen a + 1 - 1) with (zlen a) in H3 by lia.
    assert (firstn (Z.to_nat (zlen a)) (a ++ text (r ++ [0])) = a) as F.
    { unfold zlen. rewrite Nat2Z.id, firstn_app, Nat.sub_diag, firstn_all. cbn. apply app_nil_r. }
    rewrite F in H3. split.
    + rewrite H3. apply (strlen_split [] a z 0); auto.
    + rewrite H3. unfold zlen. rewrite Nat2Z.id, firstn_app, Nat.sub_diag, firstn_all. cbn. apply app_nil_r.
Qed.

Lemma repeat0_skip (n k : nat) : skipn k (repeat 0 n) = repeat 0 (n - k).
Proof. revert k. induction n as [|n IH]; intros [|k]; try reflexivity. cbn. apply IH. Qed.

Lemma hex_round src buf buf_len out out_len : all_bytes src -> zlen buf = buf_len -> zlen out = out_len ->
  zlen src * 2 + 1 <= buf_len -> zlen src <= out_len ->
  exists t r, hex_from_bin buf buf_len src = Some (zlen t, t ++ 0 :: r) /\
    hex_to_bin out out_len t = Some (zlen src, src ++ skipn (length src) out).
Proof.
  intros A <- <- H1 H2. unfold hex_from_bin. destruct (Z.ltb_spec (zlen buf) (zlen src * 2 + 1)); [lia|].
  pose proof (zlen_nonneg src). destruct (zsplit buf (2 * zlen src + 1)) as (body & rest & -> & L1 & L2); [lia|].
  destruct (hex_write_ok src A [] body rest L1) as (t & T1 & T2 & T3 & T4). cbn [app] in T4. change (zlen []) with 0 in T4. rewrite T4.
  rewrite Z.add_0_l. exists t, rest. split; [reflexivity|].
  assert (no_nul t) as N by (eapply Forall_impl; [|exact T2]; intros c; unfold lower_hex; lia).
  assert (all_bytes t) as AT by (eapply Forall_impl; [|exact T2]; intros c; unfold lower_hex, is_u8; lia).
  unfold hex_to_bin. replace 1 with (Z.ones 1) by reflexivity. rewrite Z.land_ones, T3 by lia. change (2 ^ 1) with 2.
  rewrite Z.mul_comm, Z.mod_mul, Z.div_mul by lia. destruct (Z.ltb_spec (zlen out) (zlen src)); [lia|]. cbn [negb Z.eqb orb].
  destruct (zsplit out (zlen src)) as (b1 & r' & -> & L3 & L4); [lia|].
  pose proof (hex_read_ok t src T1 AT N [] b1 r' L3) as E. cbn [app] in E. change (zlen []) with 0 in E. rewrite E.
  rewrite Z.add_0_l. do 3 f_equal. replace (length src) with (length b1) by (unfold zlen in L3; lia). rewrite skipn_app, skipn_all, Nat.sub_diag. reflexivity.
Qed.
