(** Proofs about hexadecimal text, word matching and string arrays. *)
From Verif Require Import Base BitsModel StrBase BufLemmas SplitLemmas NetaddrModel StringModel StringSpec StringProofs.

(** * str_hasnextword *)
Definition nonblank (c : Z) : bool := negb (isblank c).
Lemma match_word_eq w : forall b, map tolower w = map tolower (take_while nonblank b) -> match_word b w = (drop_while nonblank b, []).
Proof.
  induction w as [|x w IH]; intros b E.
  - destruct b as [|c b]; auto. cbn [take_while drop_while match_word] in *. destruct (nonblank c); [discriminate|reflexivity].
  - destruct b as [|c b]; [discriminate|]. cbn [take_while drop_while match_word] in *. fold (nonblank c).
    destruct (nonblank c); [|discriminate]. injection E as E1 E2. rewrite E1, Z.eqb_refl. cbn [andb]. auto.
Qed.
Lemma match_word_inv w : forall b b', match_word b w = (b', []) -> (forall c r, b' = c :: r -> isblank c = true) ->
  map tolower w = map tolower (take_while nonblank b).
Proof.
  induction w as [|x w IH]; intros b b' E H.
  - assert (b' = b) as -> by (destruct b; cbn in E; congruence). rewrite take_while_none; auto.
    intros c r ->. unfold nonblank. now rewrite (H c r).
  - destruct b as [|c b]; [discriminate|]. cbn [take_while match_word] in *. fold (nonblank c) in E.
    destruct (nonblank c); [|discriminate]. cbn [andb] in E. destruct (Z.eqb_spec (tolower x) (tolower c)) as [Q|Q]; [|discriminate].
    cbn [map]. rewrite Q. f_equal. eauto.
Qed.
Lemma hasnextword_eq s w :
  hasnextword s w = if str_eqb (map tolower w) (map tolower (word1 s)) then Some (drop_while isblank (behind1 s)) else None.
Proof.
  unfold hasnextword, word1, behind1. fold nonblank. destruct (str_eqb _ _) eqn:Q.
  - apply str_eqb_eq in Q. rewrite (match_word_eq _ _ Q).
    destruct (drop_while nonblank (drop_while isblank s)) as [|c r] eqn:D; auto.
    apply drop_while_head in D. unfold nonblank in D. destruct (isblank c); [auto|discriminate].
  - destruct (match_word (drop_while isblank s) w) as [b' w'] eqn:E. destruct w' as [|x w']; auto.
    destruct b' as [|c b']; [|destruct (isblank c) eqn:Hc; auto]; exfalso;
    (assert (map tolower w = map tolower (take_while nonblank (drop_while isblank s))) as Q2;
     [eapply match_word_inv; [exact E|]; intros c' r' [= ]; subst; auto | apply str_eqb_eq in Q2; congruence]).
Qed.

(** * Hexadecimal text *)
Lemma hexchar_value c : is_u8 c -> c <> 0 -> hexchar_to_value c = match nibble c with Some v => v | None => -1 end.
Proof.
  intros H N. apply Z.eqb_eq.
  apply (zsweep (fun c => hexchar_to_value c =? match nibble c with Some v => v | None => -1 end) 1 255).
  - vm_compute. reflexivity.
  - unfold is_u8 in H. lia.
Qed.
Lemma nibble_range c v : nibble c = Some v -> 0 <= v < 16.
Proof.
  unfold nibble. destruct ((48 <=? c) && (c <=? 57)) eqn:E1; [intros [= <-]; lia|].
  destruct ((97 <=? c) && (c <=? 102)) eqn:E2; [intros [= <-]; lia|].
  destruct ((65 <=? c) && (c <=? 70)) eqn:E3; [intros [= <-]; lia|discriminate].
Qed.
Lemma nibble_pack h l : 0 <= h < 16 -> 0 <= l < 16 -> u8 (Z.lor (Z.shiftl h 4) l) = 16 * h + l.
Proof.
  intros H L. apply Z.eqb_eq. 
  assert (forallb (fun h => forallb (fun l => u8 (Z.lor (Z.shiftl h 4) l) =? 16 * h + l) (zrange 0 16)) (zrange 0 16) = true) as A by (vm_compute; reflexivity).
  pose proof (zsweep _ _ _ A h ltac:(lia)) as A1. cbn beta in A1. exact (zsweep _ _ _ A1 l ltac:(lia)).
Qed.
Lemma hex_read_ok src bs : HexText src bs -> all_bytes src -> no_nul src -> forall done body rest, zlen body = zlen bs ->
  hex_read (done ++ body ++ rest) (zlen done) src = Some (zlen done + zlen bs, done ++ bs ++ rest).
Proof.
  induction 1 as [|a b h l t bs Ha Hb T IH]; intros A N done body rest L.
  - rewrite (@zlen_nil Z) in L. apply zlen_zero in L as ->. cbn. now rewrite Z.add_0_r.
  - inversion A as [|? ? A1 A']; subst. inversion A' as [|? ? A2 A3]; subst.
    inversion N as [|? ? N1 N']; subst. inversion N' as [|? ? N2 N3]; subst.
    cbn [hex_read]. rewrite !hexchar_value, Ha, Hb by auto.
    pose proof (nibble_range _ _ Ha). pose proof (nibble_range _ _ Hb).
    destruct (Z.ltb_spec h 0); [lia|]. destruct (Z.ltb_spec l 0); [lia|]. cbn [orb].
    rewrite zlen_cons in L. destruct body as [|x body]; [rewrite (@zlen_nil Z) in L; pose proof (zlen_nonneg bs); lia|].
    rewrite zlen_cons in L. cbn [app]. rewrite (zset_split _ _ _ _ _ eq_refl), nibble_pack by lia.
    specialize (IH A3 N3 (done ++ [16 * h + l]) body rest ltac:(lia)).
    rewrite zlen_app, zlen_cons, (@zlen_nil Z), <- !app_assoc in IH. cbn [app] in IH. change (0 + 1) with 1 in IH. rewrite IH.
    rewrite zlen_cons. f_equal. f_equal. lia.
Qed.
Lemma hex_read_len src : forall done body rest, 2 * zlen body = zlen src -> 
  exists r body', hex_read (done ++ body ++ rest) (zlen done) src = Some (r, done ++ body' ++ rest) /\ zlen body' = zlen body /\
   (r = -1 \/ r = zlen done + zlen body).
Proof.
  assert (forall n src done body rest, (length src <= n)%nat -> 2 * zlen body = zlen src ->
    exists r body', hex_read (done ++ body ++ rest) (zlen done) src = Some (r, done ++ body' ++ rest) /\ zlen body' = zlen body /\
      (r = -1 \/ r = zlen done + zlen body)) as G; [|intros; eapply G; [apply le_n|auto]].
  induction n as [|n IH]; intros s done body rest LN L.
  - destruct s; [|cbn in LN; lia]. exists (zlen done), body. rewrite (@zlen_nil Z) in L. cbn. split; auto. split; auto. right; lia.
  - destruct s as [|a [|b s]].
    + exists (zlen done), body. rewrite (@zlen_nil Z) in L. cbn. split; auto. split; auto. right; lia.
    + rewrite zlen_cons, (@zlen_nil Z) in L. lia.
    + cbn [hex_read]. destruct (_ || _); [exists (-1), body; auto|].
      rewrite !zlen_cons in L. destruct body as [|x body]; [rewrite (@zlen_nil Z) in L; pose proof (zlen_nonneg s); lia|].
      rewrite zlen_cons in L. cbn [app]. rewrite (zset_split _ _ _ _ _ eq_refl).
      set (y := u8 _). destruct (IH s (done ++ [y]) body rest) as (r & b' & E & L' & R); [cbn in LN; lia|lia|].
      rewrite zlen_app, zlen_cons, (@zlen_nil Z), <- !app_assoc in E. cbn [app] in E. change (0 + 1) with 1 in E. rewrite E.
      exists r, (y :: b'). split; [reflexivity|]. rewrite !zlen_cons, zlen_app, zlen_cons, (@zlen_nil Z) in *. split; [lia|]. lia.
Qed.
Lemma hex_read_bad src : all_bytes src -> no_nul src -> forall buf j buf', 
  hex_read buf j src = Some (j + zlen src / 2, buf') -> 0 <= j -> Z.land (zlen src) 1 = 0 -> exists bs, HexText src bs.
Proof.
  assert (forall n src, (length src <= n)%nat -> all_bytes src -> no_nul src -> forall buf j buf', 
    hex_read buf j src = Some (j + zlen src / 2, buf') -> 0 <= j -> Z.land (zlen src) 1 = 0 -> exists bs, HexText src bs) as G;
    [|intros; eapply G; eauto].
  induction n as [|n IH]; intros s LN A N buf j buf' E J P.
  - destruct s; [|cbn in LN; lia]. eexists; constructor.
  - destruct s as [|a [|b s]]; [eexists; constructor|cbn in P; discriminate|].
    inversion A as [|? ? A1 A']; subst. inversion A' as [|? ? A2 A3]; subst.
    inversion N as [|? ? N1 N']; subst. inversion N' as [|? ? N2 N3]; subst.
    cbn [hex_read] in E. rewrite !hexchar_value in E by auto.
    rewrite !zlen_cons in *. pose proof (zlen_nonneg s).
    replace (zlen s + 1 + 1) with (zlen s + 1 * 2) in * by lia. rewrite Z.div_add in E by lia.
    assert (0 <= zlen s / 2) by (apply Z.div_pos; lia).
    destruct (nibble a) as [h|] eqn:Ha; [|cbn in E; injection E; lia].
    destruct (nibble b) as [l|] eqn:Hb; [|destruct (h <? 0); cbn in E; injection E; lia].
    destruct (_ || _); [injection E; lia|]. destruct (zset buf j _) as [b1|]; [|discriminate].
    destruct (IH s) with (buf := b1) (j := j + 1) (buf' := buf') as (bs & T); auto; [cbn in LN; lia|rewrite E; f_equal; f_equal; lia|lia| |].
    + replace 1 with (Z.ones 1) in * by reflexivity. rewrite Z.land_ones in * by lia. change (2 ^ 1) with 2 in *.
      rewrite Z.mod_add in P by lia. exact P.
    + exists (16 * h + l :: bs). now constructor.
Qed.

Definition lower_hex (c : Z) : bool := ((48 <=? c) && (c <=? 57)) || ((97 <=? c) && (c <=? 102)).
Lemma hex_digits x : is_u8 x -> exists h l a b, zget HEX (Z.shiftr x 4) = Some h /\ zget HEX (Z.land x 15) = Some l /\
  nibble h = Some a /\ nibble l = Some b /\ x = 16 * a + b /\ lower_hex h = true /\ lower_hex l = true.
Proof.
  intros H.
  set (P := fun x => match zget HEX (Z.shiftr x 4), zget HEX (Z.land x 15) with
    | Some h, Some l => match nibble h, nibble l with Some a, Some b => (x =? 16 * a + b) && lower_hex h && lower_hex l | _, _ => false end
    | _, _ => false end).
  assert (P x = true) as E by (apply (zsweep P 0 256); [vm_compute; reflexivity|unfold is_u8 in H; lia]).
  unfold P in E. destruct (zget HEX (Z.shiftr x 4)) as [h|]; [|discriminate]. destruct (zget HEX (Z.land x 15)) as [l|]; [|discriminate].
  destruct (nibble h) as [a|] eqn:Ea; [|discriminate]. destruct (nibble l) as [b|] eqn:Eb; [|discriminate].
  apply andb_true_iff in E as [E E3]. apply andb_true_iff in E as [E1 E2]. apply Z.eqb_eq in E1. exists h, l, a, b. auto 10.
Qed.
Lemma hex_write_ok src : all_bytes src -> forall done body rest, zlen body = 2 * zlen src + 1 ->
  exists t, HexText t src /\ Forall (fun c => lower_hex c = true) t /\ zlen t = 2 * zlen src /\
    hex_write (done ++ body ++ rest) (zlen done) src = Some (done ++ t ++ 0 :: rest, zlen done + zlen t).
Proof.
  induction 1 as [|x src Hx A IH]; intros done body rest L.
  - rewrite (@zlen_nil Z) in L. destruct body as [|y body]; [rewrite (@zlen_nil Z) in L; lia|]. rewrite zlen_cons in L.
    assert (body = []) as -> by (apply zlen_zero; lia). exists []. split; [constructor|]. split; [constructor|]. split; [reflexivity|].
    cbn [hex_write app]. rewrite (zset_split _ _ _ _ _ eq_refl), (@zlen_nil Z), Z.add_0_r. reflexivity.
  - destruct (hex_digits x Hx) as (h & l & a & b & E1 & E2 & E3 & E4 & E5 & E6 & E7).
    rewrite zlen_cons in L. destruct (zsplit body 2) as (b1 & b2 & -> & L1 & L2); [pose proof (zlen_nonneg src); lia|].
    cbn [hex_write]. rewrite E1, E2. rewrite <- app_assoc. rewrite (copy_in_split [h; l] done b1 (b2 ++ rest)); [|auto|auto].
    destruct (IH (done ++ [h; l]) b2 rest ltac:(lia)) as (t & T1 & T2 & T3 & T4).
    replace (zlen (done ++ [h; l])) with (zlen done + 2) in T4 by (rewrite zlen_app; reflexivity).
    rewrite <- app_assoc in T4. rewrite T4. exists (h :: l :: t). split; [rewrite E5; now constructor|].
    split; [constructor; auto|]. rewrite !zlen_cons. split; [lia|]. f_equal. f_equal; [now rewrite <- app_assoc|lia].
Qed.
Lemma HexText_fun t bs bs' : HexText t bs -> HexText t bs' -> bs = bs'.
Proof.
  intros H. revert bs'. induction H as [|a b h l t bs Ha Hb T IH]; intros bs' H'; inversion H'; subst; auto.
  rewrite (IH _ H5). f_equal. congruence.
Qed.
Lemma HexText_len t bs : HexText t bs -> zlen t = 2 * zlen bs.
Proof. induction 1; auto. rewrite !zlen_cons. lia. Qed.

(** * String arrays *)
Definition reps (a : strarray) (ws : list bytes) : Prop :=
  Forall no_nul ws /\ sa_length a = zlen (flat ws) /\
  match sa_value a with
  | None => ws = []
  | Some v => ws <> [] /\ exists tail, v = flat ws ++ tail
  end.
Lemma flat_app a b : flat (a ++ b) = flat a ++ flat b.
Proof. unfold flat. apply flat_map_app. Qed.
Lemma flat_cons s ws : flat (s :: ws) = s ++ 0 :: flat ws.
Proof. unfold flat. cbn. now rewrite <- app_assoc. Qed.
Lemma flat_len s ws : zlen (flat (s :: ws)) = zlen s + 1 + zlen (flat ws).
Proof. rewrite flat_cons, zlen_app, zlen_cons. lia. Qed.
Lemma flat_pos ws : ws <> [] -> 0 < zlen (flat ws).
Proof. destruct ws as [|b ws]; [easy|]. rewrite flat_len. pose proof (zlen_nonneg b). pose proof (zlen_nonneg (flat ws)). lia. Qed.
Lemma memsize_ge n : 0 <= n -> n <= memsize n.
Proof. intros H. unfold memsize. pose proof (Z.mod_pos_bound (n + 63) 64). lia. Qed.

Lemma realloc_prefix junk a ws size : reps a ws -> zlen (flat ws) <= size ->
  exists tail, realloc true junk (sa_value a) size = Some (flat ws ++ tail) /\ zlen tail = size - zlen (flat ws).
Proof.
  intros (_ & _ & R) H. unfold realloc. pose proof (zlen_nonneg (flat ws)).
  set (o := match sa_value a with None => [] | Some b => b end).
  assert (exists t, o = flat ws ++ t) as (t & Eo).
  { unfold o. destruct (sa_value a) as [v|]; [tauto|]. subst ws. now exists []. }
  rewrite Eo. set (n := Z.to_nat size).
  assert (length (flat ws) <= n)%nat as LN by (unfold n, zlen in *; lia).
  exists (firstn (n - length (flat ws)) t ++ map junk (seq 0 (n - length (flat ws ++ t)))).
  rewrite firstn_app, (firstn_all2 (flat ws)), <- app_assoc by auto. split; [reflexivity|].
  unfold zlen. rewrite !app_length, firstn_length, map_length, seq_length. unfold zlen in H. lia.
Qed.
Lemma reps_len a ws : reps a ws -> 0 <= sa_length a.
Proof. intros (_ & -> & _). apply zlen_nonneg. Qed.

Lemma append_reps ok junk a ws s : reps a ws -> no_nul s ->
  exists a', sa_append ok junk a s = Some (if ok then 0 else -1, a') /\ reps a' (if ok then ws ++ [s] else ws).
Proof.
  intros R N. pose proof (reps_len _ _ R) as L0. pose proof R as (F & L & _). unfold sa_append. destruct ok; [|eexists; split; [reflexivity|auto]].
  pose proof (zlen_nonneg s). pose proof (memsize_ge (sa_length a + (zlen s + 1)) ltac:(lia)) as M.
  destruct (realloc_prefix junk a ws (memsize (sa_length a + (zlen s + 1))) R) as (tail & -> & LT); [lia|].
  destruct (zsplit tail (zlen s + 1)) as (t1 & t2 & -> & L1 & L2); [lia|].
  rewrite L. rewrite (copy_in_split (s ++ [0]) (flat ws) t1 t2 _ eq_refl); [|rewrite zlen_app, zlen_cons, (@zlen_nil Z); lia].
  eexists. split; [reflexivity|]. split; [apply Forall_app; auto|]. cbn [sa_length sa_value]. rewrite flat_app, zlen_app, flat_len.
  split; [change (flat []) with (@nil Z); rewrite (@zlen_nil Z); lia|]. split; [destruct ws; discriminate|].
  exists t2. rewrite flat_cons. change (flat []) with (@nil Z). rewrite <- !app_assoc. reflexivity.
Qed.
Lemma prepend_reps ok junk a ws s : reps a ws -> no_nul s ->
  exists a', sa_prepend ok junk a s = Some (if ok then 0 else -1, a') /\ reps a' (if ok then s :: ws else ws).
Proof.
  intros R N. pose proof (reps_len _ _ R) as L0. pose proof R as (F & L & _). unfold sa_prepend. destruct ok; [|eexists; split; [reflexivity|auto]].
  pose proof (zlen_nonneg s). pose proof (memsize_ge (sa_length a + (zlen s + 1)) ltac:(lia)) as M.
  destruct (realloc_prefix junk a ws (memsize (sa_length a + (zlen s + 1))) R) as (tail & -> & LT); [lia|].
  rewrite L. replace (Z.to_nat (zlen (flat ws))) with (length (flat ws)) by (unfold zlen; lia).
  rewrite (copy_out_split (flat ws) [] tail) by reflexivity.
  destruct (zsplit (flat ws ++ tail) (zlen s + 1)) as (x & yz & E & Lx & Lyz); [rewrite zlen_app; lia|].
  destruct (zsplit yz (zlen (flat ws))) as (y & z & -> & Ly & Lz); [rewrite zlen_app in Lyz; lia|].
  rewrite E. rewrite (copy_in_split (flat ws) x y z) by lia.
  rewrite (copy_in_split (s ++ [0]) [] x (flat ws ++ z)); [|reflexivity|rewrite zlen_app, zlen_cons, (@zlen_nil Z); lia].
  eexists. split; [reflexivity|]. split; [constructor; auto|]. cbn [sa_length sa_value]. rewrite flat_len.
  split; [lia|]. split; [discriminate|]. exists z. rewrite flat_cons. cbn [app]. rewrite <- !app_assoc. reflexivity.
Qed.
Lemma copy_reps ok junk a b ws wsb : reps a ws -> reps b wsb ->
  exists r a', sa_copy ok junk a b = Some (r, a') /\ reps a' (match wsb with [] => [] | _ => if ok then wsb else ws end) /\
    r = match wsb with [] => 0 | _ => if ok then 0 else -1 end.
Proof.
  intros R (Fb & Lb & Rb). unfold sa_copy. destruct (sa_value b) as [sv|].
  - destruct Rb as (Nb & tb & ->). pose proof (flat_pos _ Nb). destruct (Z.eqb_spec (sa_length b) 0); [lia|].
    destruct wsb as [|s0 wsb]; [easy|]. set (W := s0 :: wsb) in *. pose proof (memsize_ge (sa_length b) ltac:(lia)) as M.
    destruct ok; [|unfold realloc; eexists _, a; split; [reflexivity|auto]].
    destruct (realloc true junk (sa_value a) (memsize (sa_length b))) as [ptr|] eqn:E; [|unfold realloc in E; discriminate].
    assert (zlen ptr = memsize (sa_length b)) as LP.
    { unfold realloc in E. injection E as <-. rewrite zlen_app. unfold zlen. rewrite firstn_length, map_length, seq_length. lia. }
    rewrite Lb in *. replace (Z.to_nat (zlen (flat W))) with (length (flat W)) by (unfold zlen; lia).
    rewrite (copy_out_split (flat W) [] tb) by reflexivity.
    destruct (zsplit ptr (zlen (flat W))) as (x & y & -> & Lx & Ly); [lia|].
    rewrite (copy_in_split (flat W) [] x y) by (auto; reflexivity). cbn [app].
    rewrite <- (app_nil_r y). rewrite (copy_in_split _ (flat W) y []); [|reflexivity|rewrite zlen_repeat; lia].
    eexists _, _. split; [reflexivity|]. split; auto. split; auto. cbn [sa_length sa_value]. split; auto. split; auto. rewrite app_nil_r. eauto.
  - subst wsb. eexists _, _. split; [reflexivity|]. split; auto. split; [constructor|]. split; reflexivity.
Qed.

(** offsets of the elements *)
Fixpoint offs (base : Z) (ws : list bytes) : list Z :=
  match ws with [] => [] | s :: ws' => base :: offs (base + zlen s + 1) ws' end.
Lemma offsets_from_flat tail : forall ws fuel pre, Forall no_nul ws -> (length ws <= fuel)%nat ->
  sa_offsets_from fuel (pre ++ flat ws ++ tail) (zlen (pre ++ flat ws)) (zlen pre) = Some (offs (zlen pre) ws).
Proof.
  induction ws as [|s ws IH]; intros fuel pre F L.
  - change (flat []) with (@nil Z). rewrite app_nil_r. destruct fuel; cbn; now rewrite Z.ltb_irrefl.
  - inversion F as [|? ? Fs F']; subst. destruct fuel as [|fuel]; [cbn in L; lia|]. cbn [sa_offsets_from].
    rewrite zlen_app. pose proof (flat_pos (s :: ws) ltac:(discriminate)). destruct (Z.ltb_spec (zlen pre) (zlen pre + zlen (flat (s :: ws)))); [|lia].
    rewrite flat_cons. rewrite <- app_assoc. cbn [app]. rewrite (strlen_split pre s (flat ws ++ tail) _ eq_refl Fs).
    specialize (IH fuel (pre ++ s ++ [0]) F' ltac:(cbn in L; lia)). rewrite <- !app_assoc in IH. cbn [app] in IH.
    replace (zlen (pre ++ s ++ [0])) with (zlen pre + zlen s + 1) in IH by (rewrite !zlen_app; change (zlen [0]) with 1; lia).
    rewrite zlen_app in IH. rewrite IH. reflexivity.
Qed.
Lemma flat_count ws : (length ws <= length (flat ws))%nat.
Proof. induction ws as [|s ws IH]; auto. rewrite flat_cons, app_length. cbn. lia. Qed.
Lemma offsets_reps a ws : reps a ws -> sa_offsets a = Some (offs 0 ws).
Proof.
  intros (F & L & R). unfold sa_offsets. destruct (sa_value a) as [v|].
  - destruct R as (N & t & ->). rewrite L. apply (offsets_from_flat t ws _ []); auto. pose proof (flat_count ws). unfold zlen. lia.
  - now subst.
Qed.
Lemma offs_len ws : forall b, zlen (offs b ws) = zlen ws.
Proof. induction ws as [|s ws IH]; intros b; auto. cbn [offs]. now rewrite !zlen_cons, IH. Qed.
Lemma offs_nth ws : forall b i, nth_error (offs b ws) i =
  match nth_error ws i with None => None | Some _ => Some (b + zlen (flat (firstn i ws))) end.
Proof.
  induction ws as [|s ws IH]; intros b i; [destruct i; reflexivity|]. destruct i as [|i]; cbn [nth_error offs firstn].
  - change (flat []) with (@nil Z). rewrite (@zlen_nil Z), Z.add_0_r. reflexivity.
  - rewrite IH. destruct (nth_error ws i); auto. f_equal. rewrite flat_len. lia.
Qed.
Lemma get_reps a ws i : reps a ws -> sa_get a i =
  Some (match zget ws i with None => None | Some _ => Some (zlen (flat (firstn (Z.to_nat i) ws))) end).
Proof.
  intros R. unfold sa_get. rewrite (offsets_reps _ _ R). f_equal. unfold zget. destruct (i <? 0); auto. rewrite offs_nth.
  destruct (nth_error ws (Z.to_nat i)); auto.
Qed.
Lemma split_nth {A} (l : list A) n x : nth_error l n = Some x -> l = firstn n l ++ x :: skipn (S n) l.
Proof. revert n; induction l as [|y l IH]; intros [|n] E; try discriminate; cbn in *; [congruence|]. now rewrite <- IH. Qed.
Lemma string_reps a ws i s : reps a ws -> zget ws i = Some s ->
  sa_string a (zlen (flat (firstn (Z.to_nat i) ws))) = Some s.
Proof.
  intros (F & L & R) E. unfold zget in E. destruct (i <? 0); [discriminate|]. pose proof (split_nth _ _ _ E) as S1.
  unfold sa_string. destruct (sa_value a) as [v|]; [|subst; destruct (Z.to_nat i); discriminate]. destruct R as (N & t & ->).
  set (p := firstn (Z.to_nat i) ws) in *. set (q := skipn (S (Z.to_nat i)) ws) in *.
  assert (flat ws ++ t = flat p ++ s ++ 0 :: (flat q ++ t)) as ->.
  { rewrite S1, flat_app, flat_cons, <- !app_assoc. reflexivity. }
  assert (no_nul s) as Ns by (rewrite Forall_forall in F; apply F; apply nth_error_In in E; auto).
  rewrite (strlen_split _ s _ _ eq_refl Ns). replace (Z.to_nat (zlen s)) with (length s) by (unfold zlen; lia).
  now apply copy_out_split.
Qed.
Lemma remove_reps ok junk a ws i s resize : reps a ws -> zget ws i = Some s ->
  exists a', sa_remove ok junk a (zlen (flat (firstn (Z.to_nat i) ws))) resize = Some a' /\
    reps a' (firstn (Z.to_nat i) ws ++ skipn (S (Z.to_nat i)) ws).
Proof.
  intros (F & L & R) E. unfold zget in E. destruct (i <? 0); [discriminate|]. pose proof (split_nth _ _ _ E) as S1.
  unfold sa_remove. destruct (sa_value a) as [v|]; [|subst; destruct (Z.to_nat i); discriminate]. destruct R as (N & t & ->).
  set (p := firstn (Z.to_nat i) ws) in *. set (q := skipn (S (Z.to_nat i)) ws) in *. clearbody p q.
  assert (no_nul s) as Ns by (rewrite Forall_forall in F; apply F; apply nth_error_In in E; auto). clear E.
  subst ws. rewrite flat_app, flat_cons in *. rewrite <- !app_assoc in *. cbn [app] in *.
  apply Forall_app in F as [Fp Fq]. inversion Fq as [|? ? _ Fq']; subst.
  rewrite (strlen_split _ s _ _ eq_refl Ns). rewrite L. rewrite !zlen_app, zlen_cons.
  pose proof (zlen_nonneg (flat p)). pose proof (zlen_nonneg (flat q)). pose proof (zlen_nonneg s).
  destruct (Z.eqb_spec (zlen s + 1) (zlen (flat p) + (zlen s + (zlen (flat q) + 1)))) as [Q|Q].
  - assert (p = []) as -> by (destruct p as [|b p]; auto; pose proof (flat_pos (b :: p) ltac:(discriminate)); lia).
    assert (q = []) as -> by (destruct q as [|b q]; auto; pose proof (flat_pos (b :: q) ltac:(discriminate)); lia).
    eexists. split; [reflexivity|]. repeat split; auto.
  - assert (p ++ q <> []) as PQ.
    { intros X. apply app_eq_nil in X as [-> ->]. apply Q. change (flat []) with (@nil Z). rewrite !(@zlen_nil Z). lia. }
    set (el := zlen (flat p)) in *.
    replace (el + (zlen s + (zlen (flat q) + 1)) - (zlen s + 1)) with (el + zlen (flat q)) by lia.
    destruct (Z.leb_spec el (el + zlen (flat q))); [|lia].
    replace (el + zlen (flat q) - el) with (zlen (flat q)) by lia.
    replace (Z.to_nat (zlen (flat q))) with (length (flat q)) by (unfold zlen; lia).
    replace (flat p ++ s ++ 0 :: flat q ++ t) with ((flat p ++ s ++ [0]) ++ flat q ++ t) by (now rewrite <- !app_assoc).
    rewrite copy_out_split by (rewrite !zlen_app; change (zlen [0]) with 1; unfold el; lia).
    destruct (zsplit (s ++ 0 :: flat q ++ t) (zlen (flat q))) as (y & z & Eyz & Ly & Lz).
    { rewrite zlen_app, zlen_cons, zlen_app. pose proof (zlen_nonneg t). lia. }
    replace ((flat p ++ s ++ [0]) ++ flat q ++ t) with (flat p ++ y ++ z) by (rewrite <- Eyz, <- !app_assoc; reflexivity).
    rewrite (copy_in_split (flat q) (flat p) y z el eq_refl Ly).
    assert (forall v, reps {| sa_value := Some (flat (p ++ q) ++ v); sa_length := el + zlen (flat q) |} (p ++ q)) as RR.
    { intros v. split; [apply Forall_app; auto|]. cbn [sa_length sa_value]. split; [rewrite flat_app, zlen_app; reflexivity|]. split; eauto. }
    assert (flat p ++ flat q ++ z = flat (p ++ q) ++ z) as -> by (rewrite flat_app, <- app_assoc; reflexivity).
    destruct resize; [|eexists; split; [reflexivity|apply RR]].
    destruct ok; [|unfold realloc; eexists; split; [reflexivity|apply RR]].
    destruct (realloc_prefix junk _ _ (memsize (el + zlen (flat q))) (RR z)) as (tail & E & _).
    { rewrite flat_app, zlen_app. apply memsize_ge. unfold el. lia. }
    cbn [sa_value] in E. rewrite E. eexists. split; [reflexivity|apply RR].
Qed.

Lemma step_reps junk a b wa wb o : reps a wa -> reps b wb -> op_ok o ->
  exists a' b', sa_step junk (a, b) o = Some (a', b') /\ reps a' (fst (spec_step (wa, wb) o)) /\ reps b' (snd (spec_step (wa, wb) o)).
Proof.
  intros Ra Rb O. destruct o as [ok s|ok s|ok i rs|ok| |]; cbn [sa_step spec_step op_ok fst snd] in *.
  - destruct (append_reps ok junk a wa s Ra O) as (a' & -> & R). eauto.
  - destruct (prepend_reps ok junk a wa s Ra O) as (a' & -> & R). eauto.
  - rewrite (get_reps a wa i Ra). destruct (zget wa i) as [s|] eqn:E.
    + destruct (remove_reps ok junk a wa i s rs Ra E) as (a' & -> & R). apply zget_bound in E. destruct (Z.ltb_spec i 0); [lia|]. eauto.
    + exists a, b. split; auto. split; auto. destruct (Z.ltb_spec i 0); auto. apply zget_None in E. destruct E; [lia|].
      assert (length wa <= Z.to_nat i)%nat by (unfold zlen in *; lia). rewrite firstn_all2, skipn_all2, app_nil_r by lia. auto.
  - destruct (copy_reps ok junk a b wa wb Ra Rb) as (r & a' & -> & R & _). eauto.
  - exists sa_init, b. split; auto. split; auto. repeat split; auto.
  - eauto.
Qed.
Lemma run_reps junk ops : forall a b wa wb, reps a wa -> reps b wb -> Forall op_ok ops ->
  exists a' b', sa_run junk (a, b) ops = Some (a', b') /\
    reps a' (fst (fold_left spec_step ops (wa, wb))) /\ reps b' (snd (fold_left spec_step ops (wa, wb))).
Proof.
  induction ops as [|o ops IH]; intros a b wa wb Ra Rb F; cbn [sa_run fold_left]; [eauto|].
  inversion F as [|? ? O F']; subst. destruct (step_reps junk a b wa wb o Ra Rb O) as (a' & b' & -> & R1 & R2).
  rewrite (surjective_pairing (spec_step (wa, wb) o)). now apply IH.
Qed.

(** ** Comparison *)
Lemma lex_refl a : lex a a = 0.
Proof. induction a as [|x a IH]; cbn; auto. now rewrite Z.ltb_irrefl. Qed.
Lemma lex_eq a : forall b, lex a b = 0 -> a = b.
Proof.
  induction a as [|x a IH]; intros [|y b]; cbn; try lia; auto.
  destruct (Z.ltb_spec x y); [lia|]. destruct (Z.ltb_spec y x); [lia|]. intros H'. f_equal; [lia|auto].
Qed.
Lemma lex_anti a : forall b, lex a b = - lex b a.
Proof.
  induction a as [|x a IH]; intros [|y b]; cbn; auto.
  destruct (Z.ltb_spec x y); destruct (Z.ltb_spec y x); try lia; auto.
Qed.
Lemma lex_trans a : forall b c, lex a b <= 0 -> lex b c <= 0 -> lex a c <= 0.
Proof.
  induction a as [|x a IH]; intros [|y b] [|z c]; cbn; try lia.
  destruct (Z.ltb_spec x y); destruct (Z.ltb_spec y x); destruct (Z.ltb_spec y z); destruct (Z.ltb_spec z y);
    destruct (Z.ltb_spec x z); destruct (Z.ltb_spec z x); try lia. apply IH.
Qed.
Lemma flat_inj : forall a b, Forall no_nul a -> Forall no_nul b -> flat a = flat b -> a = b.
Proof.
  induction a as [|s a IH]; intros [|t b] Fa Fb E; auto.
  - rewrite flat_cons in E. destruct t; discriminate.
  - rewrite flat_cons in E. destruct s; discriminate.
  - rewrite !flat_cons in E. inversion Fa; inversion Fb; subst.
    assert (s = t) as -> by (rewrite <- (text_app s (flat a)), <- (text_app t (flat b)), E; auto).
    apply app_inv_head in E. injection E as E. f_equal. auto.
Qed.
Lemma memcmp_lex a : forall b ra rb, zlen a = zlen b ->
  lex (a ++ ra) (b ++ rb) = if memcmp a b =? 0 then lex ra rb else memcmp a b.
Proof.
  induction a as [|x a IH]; intros [|y b] ra rb L; rewrite ?zlen_cons, ?(@zlen_nil Z) in L;
    try (pose proof (zlen_nonneg a)); try (pose proof (zlen_nonneg b)); try lia; auto.
  cbn [lex memcmp app]. rewrite Z.gtb_ltb. destruct (x <? y); auto. destruct (y <? x); auto. apply IH. lia.
Qed.
Lemma cmp_reps a b wa wb : reps a wa -> reps b wb -> sa_cmp a b = Some (lex (flat wa) (flat wb)).
Proof.
  intros (Fa & La & Ra) (Fb & Lb & Rb). unfold sa_cmp.
  destruct (sa_value a) as [v1|], (sa_value b) as [v2|].
  - destruct Ra as (Na & ta & ->), Rb as (Nb & tb & ->). rewrite La, Lb.
    set (A := flat wa). set (B := flat wb). rewrite Z.gtb_ltb. destruct (Z.ltb_spec (zlen B) (zlen A)) as [H|H].
    + pose proof (zlen_nonneg B). destruct (zsplit A (zlen B)) as (x & y & EA & Lx & Ly); [lia|].
      assert (copy_out (A ++ ta) 0 (Z.to_nat (zlen B)) = Some x) as ->.
      { rewrite EA, <- app_assoc. replace (Z.to_nat (zlen B)) with (length x) by (unfold zlen in *; lia). now apply (copy_out_split x []). }
      assert (copy_out (B ++ tb) 0 (Z.to_nat (zlen B)) = Some B) as ->.
      { replace (Z.to_nat (zlen B)) with (length B) by (unfold zlen in *; lia). now apply (copy_out_split B []). }
      f_equal. assert (lex A B = if memcmp x B =? 0 then lex y [] else memcmp x B) as ->.
      { rewrite EA. rewrite <- (app_nil_r B) at 1. apply memcmp_lex. lia. }
      destruct (memcmp x B =? 0); auto. destruct y; [rewrite (@zlen_nil Z) in Ly; lia|]. reflexivity.
    + pose proof (zlen_nonneg A). destruct (zsplit B (zlen A)) as (x & y & EB & Lx & Ly); [lia|].
      assert (copy_out (A ++ ta) 0 (Z.to_nat (zlen A)) = Some A) as ->.
      { replace (Z.to_nat (zlen A)) with (length A) by (unfold zlen in *; lia). now apply (copy_out_split A []). }
      assert (copy_out (B ++ tb) 0 (Z.to_nat (zlen A)) = Some x) as ->.
      { rewrite EB, <- app_assoc. replace (Z.to_nat (zlen A)) with (length x) by (unfold zlen in *; lia). now apply (copy_out_split x []). }
      f_equal. assert (lex A B = if memcmp A x =? 0 then lex [] y else memcmp A x) as ->.
      { rewrite EB. rewrite <- (app_nil_r A) at 1. apply memcmp_lex. lia. }
      destruct (Z.eqb_spec (memcmp A x) 0) as [E|E]; auto. destruct (Z.ltb_spec (zlen A) (zlen B)).
      * destruct y; [rewrite (@zlen_nil Z) in Ly; lia|]. reflexivity.
      * rewrite E. assert (y = []) as -> by (apply zlen_zero; lia). reflexivity.
  - destruct Ra as (Na & ta & ->). subst wb. destruct wa as [|s wa]; [easy|]. rewrite flat_cons. destruct s; reflexivity.
  - destruct Rb as (Nb & tb & ->). subst wa. destruct wb as [|s wb]; [easy|]. rewrite flat_cons. destruct s; reflexivity.
  - subst. reflexivity.
Qed.
