(** Proofs about object classes. *)
From Verif Require Import Base ListModel ClassModel ClassSpec.

Lemma roundup_mod z : 0 <= z -> z + 15 < 18446744073709551616 -> roundup z = (z + 15) / 16 * 16.
Proof.
  intros H1 H2. unfold roundup, LINK. replace (z + 16 - 1) with (z + 15) by lia.
  unfold u64. rewrite Z.mod_small by lia.
  replace (18446744073709551615 - (16 - 1)) with (Z.ones 64 - Z.ones 4) by reflexivity.
  replace ((z + 15) / 16 * 16) with (Z.shiftl (Z.shiftr (z + 15) 4) 4).
  2:{ rewrite Z.shiftl_mul_pow2, Z.shiftr_div_pow2 by lia. reflexivity. }
  apply Z.bits_inj'. intros n Hn. rewrite Z.land_spec.
  replace (Z.ones 64 - Z.ones 4) with (Z.shiftl (Z.ones 60) 4) by reflexivity.
  rewrite !Z.shiftl_spec by lia.
  destruct (Z.ltb_spec n 4).
  - rewrite !(Z.testbit_neg_r _ (n - 4)) by lia. apply andb_false_r.
  - rewrite Z.shiftr_spec by lia. replace (n - 4 + 4) with n by lia.
    destruct (Z.ltb_spec n 64).
    + rewrite Z.ones_spec_low by lia. apply andb_true_r.
    + rewrite Z.ones_spec_high by lia. rewrite andb_false_r. symmetry.
      destruct (Z.eq_dec (z + 15) 0); [lia|]. apply Z.bits_above_log2; [lia|].
      apply Z.log2_lt_pow2; [lia|]. apply Z.lt_le_trans with (2 ^ 64); [cbn; lia|]. apply Z.pow_le_mono_r; lia.
Qed.
Lemma roundup_ok z : 0 <= z -> z + 15 < 18446744073709551616 -> z <= roundup z <= z + 15 /\ roundup z mod 16 = 0.
Proof.
  intros H1 H2. rewrite roundup_mod by auto. split.
  - pose proof (Z.div_mod (z + 15) 16 ltac:(lia)). pose proof (Z.mod_pos_bound (z + 15) 16 ltac:(lia)). lia.
  - apply Z.mod_mul. lia.
Qed.

Lemma in_filter_ne a x l : In x (filter (fun y => negb (y =? a)) l) <-> In x l /\ x <> a.
Proof. rewrite filter_In. destruct (Z.eqb_spec x a); cbn; intuition congruence. Qed.
Lemma filter_ne_id a l : ~ In a l -> filter (fun y => negb (y =? a)) l = l.
Proof.
  induction l as [|y l IH]; cbn; auto. intro NI. destruct (Z.eqb_spec y a). subst; tauto. cbn. f_equal. tauto.
Qed.
Lemma len_filter_ne a l : NoDup l -> In a l -> zlen (filter (fun y => negb (y =? a)) l) = zlen l - 1.
Proof.
  intros ND. induction ND as [|x l NI ND IH]; cbn; [tauto|]. intros [->|I].
  - rewrite Z.eqb_refl. cbn. rewrite filter_ne_id by auto. unfold zlen. cbn [length]. lia.
  - destruct (Z.eqb_spec x a); [subst; tauto|]. cbn. specialize (IH I). unfold zlen in *. cbn [length]. lia.
Qed.
Lemma existsb_in a l : existsb (Z.eqb a) l = true <-> In a l.
Proof.
  rewrite existsb_exists. split. intros (x & H & E). apply Z.eqb_eq in E. congruence. intro. exists a. rewrite Z.eqb_refl. auto.
Qed.
Lemma existsb_nin a l : existsb (Z.eqb a) l = false <-> ~ In a l.
Proof. rewrite <- existsb_in. destruct existsb; intuition congruence. Qed.
Lemma u32_p z : u32 (u32 z + 1) = u32 (z + 1).
Proof. unfold u32. now rewrite Zplus_mod_idemp_l. Qed.
Lemma u32_m z : u32 (u32 z - 1) = u32 (z - 1).
Proof. unfold u32. now rewrite Zminus_mod_idemp_l. Qed.

Lemma upd_same' {A} (f : Z -> A) x v : upd f x v x = v.
Proof. unfold upd. now rewrite Z.eqb_refl. Qed.

Lemma upd_other' {A} (f : Z -> A) x v y : y <> x -> upd f x v y = f y.
Proof. unfold upd. intros. now rewrite (proj2 (Z.eqb_neq _ _)). Qed.
Lemma NoDup_app_l (a b : list Z) : NoDup (a ++ b) -> NoDup a.
Proof.
  induction a; cbn; intro H; constructor; inversion_clear H; auto. intro. apply H0, in_or_app. auto.
Qed.
Lemma NoDup_app_disj (a b : list Z) x : NoDup (a ++ b) -> In x a -> ~ In x b.
Proof.
  induction a as [|y a IH]; cbn; intros H I J; [auto|]. inversion_clear H. destruct I as [->|I].
  apply H0, in_or_app; auto. eapply IH; eauto.
Qed.
Lemma nd_drop a l b : NoDup (l ++ b) -> NoDup (filter (fun y => negb (y =? a)) l ++ b).
Proof.
  induction l as [|x l IH]; cbn; auto. intro H. inversion_clear H as [|? ? H1 H2].
  destruct (x =? a); cbn; auto. constructor; auto. intro I. apply H1. apply in_app_or in I as [I|I]; apply in_or_app; auto.
  apply in_filter_ne in I. tauto.
Qed.
Lemma nd_snoc (a : Z) l : NoDup l -> ~ In a l -> NoDup (l ++ [a]).
Proof.
  induction l as [|x l IH]; cbn; intros H N. repeat constructor; auto. inversion_clear H as [|? ? H1 H2].
  constructor; auto. intro I. apply in_app_or in I as [I|[I|[]]]; subst; tauto.
Qed.
Lemma nd_move a l b : NoDup (l ++ b) -> In a l -> NoDup (filter (fun y => negb (y =? a)) l ++ b ++ [a]).
Proof.
  intros H I. rewrite app_assoc. apply nd_snoc. now apply nd_drop.
  intro J. apply in_app_or in J as [J|J]. apply in_filter_ne in J. tauto. eapply NoDup_app_disj; eauto.
Qed.

Section Inv.
Context (size minfree : Z) (esize : Z -> Z) (Hs : 1 <= size) (He : forall e, 0 <= esize e).

Record cinv (s : cstate) (live : list Z) (tr : list (cop * cres)) : Prop := {
  ci_size : csize s = size /\ cminfree s = minfree /\ cesize s = esize;
  ci_nd : NoDup (live ++ cfree s);
  ci_mem : forall a, mem s a <> None <-> In a live \/ In a (cfree s);
  ci_len : forall a b, mem s a = Some b -> zlen b = ctotal s;
  ci_fs : cfreesize s = u32 (zlen (cfree s));
  ci_us : cusage s = u32 (zlen live);
  ci_al : callocated s = u32 (n_fresh tr);
  ci_re : crecycled s = u32 (n_recycled tr);
  ci_none : n_fresh tr = 0 -> live = [] /\ cfree s = [];
  ci_total : size <= ctotal s <= size + 15 + asked esize tr /\ ctotal s mod 16 = 0;
  ci_end : NoDup (cexts s);
  ci_ext : forall e, In e (cexts s) -> 0 < esize e -> size <= coffset s e /\ coffset s e mod 16 = 0 /\ coffset s e + esize e <= ctotal s;
  ci_dis : forall e f, In e (cexts s) -> In f (cexts s) -> e <> f -> 0 < esize e -> 0 < esize f -> disjoint (range_of s e) (range_of s f)
}.

Lemma asked_nonneg tr : 0 <= asked esize tr.
Proof.
  induction tr as [|[o r] tr IH]; cbn. lia. fold (asked esize tr). destruct o; try (specialize (He e)); lia.
Qed.
Lemma asked_mono o r tr : asked esize tr <= asked esize ((o, r) :: tr).
Proof. cbn. fold (asked esize tr). destruct o; try (specialize (He e)); lia. Qed.
Lemma fresh_nonneg tr : 0 <= n_fresh tr.
Proof. unfold n_fresh, zlen. lia. Qed.

Lemma poke_ok m a v b : m a = Some b -> (length v <= length b)%nat -> poke m a v = Some (upd m a (Some (v ++ skipn (length v) b))).
Proof. intros E H. unfold poke. rewrite E. now rewrite (proj2 (Nat.leb_le _ _) H). Qed.
Lemma total16 s live tr : cinv s live tr -> 16 <= ctotal s.
Proof.
  intro I. destruct (ci_total _ _ _ I) as [T M]. pose proof (Z.div_mod (ctotal s) 16 ltac:(lia)). lia.
Qed.

Lemma step_inv s live tr o : cinv s live tr -> cop_ok s live o ->
  (n_fresh tr < 4294967296) ->
  (forall r, size + 31 + asked esize ((o, r) :: tr) < 18446744073709551616) ->
  exists s' r, cstep s o = Some (s', r) /\ cinv s' (live_step live o r) ((o, r) :: tr) /\
    match o, r with
    | OMalloc _, RBlock (Some a) rc => ~ In a live /\ mem s' a = Some (repeat 0 (Z.to_nat (ctotal s'))) /\ rc = existsb (Z.eqb a) (cfree s)
    | OMalloc x, RBlock None _ => x = None /\ s' = s
    | OMalloc _, _ => False
    | OExtAdd e, RCode c => c = 0 /\ In e (cexts s') \/ c = -1 /\ s' = s /\ 0 < esize e /\ n_fresh tr <> 0 /\ ~ In e (cexts s)
    | OExtAdd _, _ => False
    | _, _ => r = RNone
    end /\
    (forall a, In a live -> (match o with OFree x _ | OWrite x _ _ => x <> a | _ => True end) -> mem s' a = mem s a).
Proof.
  intros I Ho Hf Ha. pose proof (total16 _ _ _ I) as T16. pose proof I as I0.
  destruct I as [[Sz [Mf Es]] ND MM LN FS US AL RE NN [TO TM] EN EX DI].
  destruct o as [r|a links|a off v|e|e]; cbn [cop_ok] in Ho.
  - (* malloc *)
    cbn [cstep]. unfold class_malloc. destruct (cfree s) as [|a fl] eqn:EF.
    + destruct r as [a|].
      * specialize (Ho a eq_refl). assert (NL : ~ In a live). { intro Hi. assert (mem s a <> None) by (apply MM; auto). congruence. }
        unfold is_block. rewrite Ho. eexists _, _. split; [reflexivity|]. split; [|split].
        -- cbn [live_step]. constructor; cbn [csize cminfree ctotal cfree cexts coffset cesize cfreesize cusage callocated crecycled mem]; auto.
           ++ rewrite app_nil_r in *. constructor; auto.
           ++ intro b. unfold upd. destruct (Z.eqb_spec b a) as [->|Nb]. split; [cbn; auto|congruence].
              rewrite MM. cbn. intuition congruence.
           ++ intros b c. unfold upd. destruct (b =? a); [|apply LN]. injection 1 as <-. unfold zlen. rewrite repeat_length. lia.
           ++ rewrite US, u32_p. f_equal. unfold zlen. cbn [length]. lia.
           ++ rewrite AL, u32_p. f_equal. unfold n_fresh, zlen. cbn. lia.
           ++ unfold n_fresh. cbn. fold (n_fresh tr). unfold zlen. cbn [length]. lia.
           ++ split; auto. pose proof (asked_mono (OMalloc (Some a)) (RBlock (Some a) false) tr). lia.
        -- split; auto. cbn. rewrite upd_same'. auto.
        -- intros b Hb _. cbn. unfold upd. destruct (Z.eqb_spec b a); congruence.
      * eexists _, _. split; [reflexivity|]. split; [|split]; auto.
        cbn [live_step]. destruct I0. constructor; auto.
        pose proof (asked_mono (OMalloc None) (RBlock None false) tr). split; auto; lia.
    + assert (Im : mem s a <> None) by (apply MM; cbn; auto).
      destruct (mem s a) as [b|] eqn:Eb; [|congruence]. pose proof (LN a b Eb) as Lb.
      rewrite (poke_ok _ _ _ b Eb) by (rewrite repeat_length; unfold zlen in Lb; lia).
      rewrite repeat_length, skipn_all2, app_nil_r by (unfold zlen in Lb; lia).
      assert (NL : ~ In a live). { intro Hi. apply NoDup_remove_2 in ND. apply ND. apply in_or_app. auto. }
      unfold is_block. rewrite Eb. eexists _, _. split; [reflexivity|]. split; [|split].
      * cbn [live_step]. constructor; cbn [csize cminfree ctotal cfree cexts coffset cesize cfreesize cusage callocated crecycled mem]; auto.
        -- apply NoDup_remove in ND as [ND NA]. constructor; auto.
        -- intro c. unfold upd. destruct (Z.eqb_spec c a) as [->|Nb]. split; [cbn; auto|congruence].
           rewrite MM. cbn. intuition congruence.
        -- intros c d. unfold upd. destruct (c =? a); [|apply LN]. injection 1 as <-. unfold zlen. rewrite repeat_length. lia.
        -- rewrite FS, u32_m. f_equal. unfold zlen. cbn [length]. lia.
        -- rewrite US, u32_p. f_equal. unfold zlen. cbn [length]. lia.
        -- rewrite RE, u32_p. f_equal. unfold n_recycled, zlen. cbn. lia.
        -- unfold n_fresh. cbn. fold (n_fresh tr). intro E0. destruct (NN E0). discriminate.
        -- split; auto. pose proof (asked_mono (OMalloc r) (RBlock (Some a) true) tr). lia.
      * split; auto. cbn. rewrite upd_same', Z.eqb_refl. auto.
      * intros c Hc _. cbn. unfold upd. destruct (Z.eqb_spec c a); congruence.
  - (* free *)
    destruct Ho as [Il Ll]. cbn [cstep]. unfold class_free.
    assert (Im : mem s a <> None) by (apply MM; auto).
    destruct (mem s a) as [b|] eqn:Eb; [|congruence]. pose proof (LN a b Eb) as Lb.
    assert (NDl : NoDup live) by (eapply NoDup_app_l; eauto).
    assert (NIF : ~ In a (cfree s)) by (intro; eapply NoDup_app_disj; eauto).
    destruct ((cfreesize s <? cminfree s) || (cfreesize s <? cusage s / 10)).
    + rewrite (poke_ok _ _ _ b Eb) by (rewrite Ll; unfold zlen in Lb; lia).
      eexists _, _. split; [reflexivity|]. split; [|split].
      * cbn [live_step]. constructor; cbn [csize cminfree ctotal cfree cexts coffset cesize cfreesize cusage callocated crecycled mem]; auto.
        -- apply nd_move; auto.
        -- intro c. unfold upd. destruct (Z.eqb_spec c a) as [->|Nc].
           split; [intros _; right; apply in_or_app; cbn; auto|congruence].
           rewrite MM, in_filter_ne, in_app_iff. cbn. intuition congruence.
        -- intros c d. unfold upd. destruct (c =? a); [|apply LN]. injection 1 as <-. unfold zlen in *. rewrite app_length, skipn_length, Ll. lia.
        -- rewrite FS, u32_p. f_equal. unfold zlen. rewrite app_length. cbn [length]. lia.
        -- rewrite US, u32_m. f_equal. now rewrite len_filter_ne.
        -- intro E0. destruct (NN E0) as [-> _]. contradiction.
        -- split; auto. pose proof (asked_mono (OFree a links) RNone tr). lia.
      * reflexivity.
      * intros c _ Nc. cbn. unfold upd. destruct (Z.eqb_spec c a); congruence.
    + eexists _, _. split; [reflexivity|]. split; [|split].
      * cbn [live_step]. constructor; cbn [csize cminfree ctotal cfree cexts coffset cesize cfreesize cusage callocated crecycled mem]; auto.
        -- apply nd_drop; auto.
        -- intro c. unfold upd. destruct (Z.eqb_spec c a) as [->|Nc].
           rewrite in_filter_ne. intuition congruence.
           rewrite MM, in_filter_ne. intuition congruence.
        -- intros c d. unfold upd. destruct (c =? a); [discriminate|apply LN].
        -- rewrite US, u32_m. f_equal. now rewrite len_filter_ne.
        -- intro E0. destruct (NN E0) as [-> _]. contradiction.
        -- split; auto. pose proof (asked_mono (OFree a links) RNone tr). lia.
      * reflexivity.
      * intros c _ Nc. cbn. unfold upd. destruct (Z.eqb_spec c a); congruence.
  - (* write *)
    destruct Ho as [Il Ho]. cbn [cstep]. unfold user_write.
    assert (Im : mem s a <> None) by (apply MM; auto).
    destruct (mem s a) as [b|] eqn:Eb; [|congruence]. pose proof (LN a b Eb) as Lb.
    destruct (zset b off v) as [b'|] eqn:Ez.
    2:{ unfold zset in Ez. destruct (Z.leb_spec 0 off); [|lia]. destruct (Z.ltb_spec off (zlen b)); [discriminate|lia]. }
    eexists _, _. split; [reflexivity|]. split; [|split].
    + cbn [live_step]. constructor; cbn [csize cminfree ctotal cfree cexts coffset cesize cfreesize cusage callocated crecycled mem]; auto.
      * intro c. unfold upd. destruct (Z.eqb_spec c a) as [->|Nc]. intuition congruence. apply MM.
      * intros c d. unfold upd. destruct (c =? a); [|apply LN]. injection 1 as <-. apply zset_len in Ez. lia.
      * split; auto. pose proof (asked_mono (OWrite a off v) RNone tr). lia.
    + reflexivity.
    + intros c _ Nc. cbn. unfold upd. destruct (Z.eqb_spec c a); congruence.
  - (* extension_add *)
    cbn [cstep]. unfold extension_add.
    pose proof (asked_nonneg tr) as AN. pose proof (He e) as Hee.
    assert (AE : forall r, asked esize ((OExtAdd e, r) :: tr) = asked esize tr + (esize e + 16)) by reflexivity.
    specialize (Ha RNone). rewrite AE in Ha.
    assert (EA : callocated s = 0 <-> n_fresh tr = 0).
    { rewrite AL. pose proof (fresh_nonneg tr). unfold u32. rewrite Z.mod_small by lia. tauto. }
    destruct (existsb (Z.eqb e) (cexts s)) eqn:X.
    + apply existsb_in in X. eexists _, _. split; [reflexivity|]. split; [|split].
      * cbn [live_step]. destruct I0. constructor; auto. split; auto. rewrite AE. lia.
      * left. auto.
      * auto.
    + apply existsb_nin in X. rewrite Es.
      destruct (Z.gtb_spec (esize e) 0) as [Gs|Gs].
      * destruct (Z.eqb_spec (callocated s) 0) as [E0|E0]; cbn [negb andb].
        -- apply EA in E0. destruct (NN E0) as [-> EF].
           cbn [cesize]. rewrite (proj2 (Z.gtb_lt _ _) Gs).
           eexists _, _. split; [reflexivity|].
           unfold free_freelist. cbn [csize cminfree ctotal cfree cexts coffset cesize cfreesize cusage callocated crecycled mem].
           rewrite EF. cbn [existsb].
           assert (U : u64 (ctotal s + esize e) = ctotal s + esize e) by (apply Z.mod_small; lia).
           rewrite U. pose proof (roundup_ok (ctotal s + esize e) ltac:(lia) ltac:(lia)) as [R1 R2].
           split; [|split].
           ++ cbn [live_step]. constructor; cbn [csize cminfree ctotal cfree cexts coffset cesize cfreesize cusage callocated crecycled mem]; auto.
              ** constructor.
              ** intro a. rewrite MM, EF. tauto.
              ** intros a b Eb. assert (mem s a <> None) by congruence. apply MM in H. rewrite EF in H. destruct H as [[]|[]].
              ** split; auto. rewrite AE. lia.
              ** apply nd_snoc; auto.
              ** intros f Hf' Sf. apply in_app_or in Hf' as [Hf'|[<-|[]]].
                 --- rewrite upd_other' by congruence. specialize (EX f Hf' Sf). lia.
                 --- rewrite upd_same'. lia.
              ** intros f g Hf' Hg Nfg Sf Sg. unfold range_of, disjoint.
                 cbn [coffset cesize fst snd].
                 apply in_app_or in Hf' as [Hf'|[<-|[]]]; apply in_app_or in Hg as [Hg|[<-|[]]].
                 --- rewrite !upd_other' by congruence. specialize (DI f g Hf' Hg Nfg Sf Sg). unfold disjoint, range_of in DI. rewrite Es in DI. exact DI.
                 --- rewrite upd_same', upd_other' by congruence. specialize (EX f Hf' Sf). lia.
                 --- rewrite upd_same', upd_other' by congruence. specialize (EX g Hg Sg). lia.
                 --- congruence.
           ++ left. split; auto. cbn. apply in_or_app. cbn. auto.
           ++ contradiction.
        -- eexists _, _. split; [reflexivity|]. split; [|split].
           ++ cbn [live_step]. destruct I0. constructor; auto. split; auto. rewrite AE. lia.
           ++ right. split; auto. split; auto. split; [lia|]. split; [tauto|auto].
           ++ auto.
      * rewrite andb_false_r. cbn [cesize]. replace (esize e >? 0) with false by (destruct (Z.gtb_spec (esize e) 0); auto; lia).
        eexists _, _. split; [reflexivity|]. split; [|split].
        -- cbn [live_step]. constructor; cbn [csize cminfree ctotal cfree cexts coffset cesize cfreesize cusage callocated crecycled mem]; auto.
           ++ split; auto. rewrite AE. lia.
           ++ apply nd_snoc; auto.
           ++ intros f Hf' Sf. apply in_app_or in Hf' as [Hf'|[<-|[]]]; [auto|lia].
           ++ intros f g Hf' Hg Nfg Sf Sg. apply in_app_or in Hf' as [Hf'|[<-|[]]]; apply in_app_or in Hg as [Hg|[<-|[]]]; try lia.
              specialize (DI f g Hf' Hg Nfg Sf Sg). unfold range_of in *. cbn [coffset cesize]. rewrite <- Es. exact DI.
        -- left. split; auto. cbn. apply in_or_app. cbn. auto.
        -- auto.
  - (* extension_remove *)
    cbn [cstep]. unfold extension_remove. eexists _, _. split; [reflexivity|].
    pose proof (asked_mono (OExtRemove e) RNone tr) as AM.
    destruct (existsb (Z.eqb e) (cexts s)) eqn:X.
    + split; [|split]; auto.
      cbn [live_step]. constructor; cbn [csize cminfree ctotal cfree cexts coffset cesize cfreesize cusage callocated crecycled mem]; auto.
      * split; auto. lia.
      * now apply NoDup_filter.
      * intros f Hf' Sf. apply in_filter_ne in Hf' as [Hf' Nf]. rewrite upd_other' by auto. auto.
      * intros f g Hf' Hg Nfg Sf Sg. apply in_filter_ne in Hf' as [Hf' Nf], Hg as [Hg Ng].
        specialize (DI f g Hf' Hg Nfg Sf Sg). unfold range_of in *. cbn [coffset cesize]. rewrite !upd_other' by auto. exact DI.
    + split; [|split]; auto. cbn [live_step]. destruct I0. constructor; auto. split; auto. lia.
Qed.

Lemma init_inv : size + 31 < 18446744073709551616 -> cinv (class_add size minfree esize) [] [].
Proof.
  intro H. pose proof (roundup_ok size ltac:(lia) ltac:(lia)) as [R1 R2].
  constructor; cbn; auto; try constructor; try tauto; try congruence; try lia.
Qed.

Lemma fresh_le o r tr : n_fresh tr <= n_fresh ((o, r) :: tr).
Proof. unfold n_fresh. cbn. destruct r as [[a|] []| |]; unfold zlen; cbn [length]; lia. Qed.

Lemma run_inv s live tr : crun (class_add size minfree esize) s live tr ->
  n_fresh tr < 4294967296 -> size + 31 + asked esize tr < 18446744073709551616 -> cinv s live tr.
Proof.
  induction 1 as [|s live tr o s' r HR IH Ho E]; intros Hf Ha.
  - apply init_inv. cbn in Ha. lia.
  - pose proof (asked_mono o r tr). pose proof (fresh_le o r tr).
    assert (I : cinv s live tr) by (apply IH; lia).
    destruct (step_inv s live tr o I Ho) as (s2 & r2 & E2 & I2 & _).
    + lia.
    + intro r'. destruct o; exact Ha.
    + rewrite E in E2. injection E2 as <- <-. exact I2.
Qed.
End Inv.
