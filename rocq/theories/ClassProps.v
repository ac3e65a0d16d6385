(** Object class properties (C15, C16). *)
From Verif Require Import Base ListModel ClassModel ClassSpec ClassProofs.

Section Props.
Context (size minfree : Z) (esize : Z -> Z).
(** a history of calls on a class of objects with at least one byte; the counter of
    fresh allocations and the object size do not wrap *)
Definition history (s : cstate) (live : list Z) (tr : list (cop * cres)) : Prop :=
  1 <= size /\ (forall e, 0 <= esize e) /\
  crun (class_add size minfree esize) s live tr /\
  n_fresh tr < 4294967296 /\ size + 31 + asked esize tr < 18446744073709551616.

(** C15: no call touches memory outside of a block; malloc gives a block that is not
    in use, filled with zeros over its whole size; it fails only when calloc does; the content of
    the blocks in use changes only by writes of their users *)
Theorem C15_blocks_exclusive_and_zero s live tr o : history s live tr -> cop_ok s live o ->
  (forall r, size + 31 + asked esize ((o, r) :: tr) < 18446744073709551616) ->
  exists s' r, cstep s o = Some (s', r) /\
    match o with
    | OMalloc c =>
        match r with
        | RBlock (Some a) _ => ~ In a live /\ mem s' a = Some (repeat 0 (Z.to_nat (ctotal s')))
        | RBlock None _ => c = None
        | _ => False
        end
    | _ => True
    end /\
    (forall a, In a live -> (match o with OFree x _ | OWrite x _ _ => x <> a | _ => True end) -> mem s' a = mem s a).
Proof.
  intros (Hs & He & HR & Hf & Ha) Ho Ha2.
  pose proof (run_inv size minfree esize Hs He s live tr HR Hf Ha) as I.
  destruct (step_inv size minfree esize Hs He s live tr o I Ho Hf Ha2) as (s' & r & E & _ & P & U).
  exists s', r. split; [exact E|]. split; [|exact U].
  destruct o; auto. destruct r as [[a|] rc| |]; tauto.
Qed.

(** C15: every block in use exists and has the size of the class, blocks in use are
    different; what is neither in use nor in the pool was given back; the counters
    are the number of blocks in use, in the pool, allocated with calloc, recycled *)
Theorem C15_counters_and_no_leak s live tr : history s live tr ->
  NoDup live /\
  (forall a, In a live -> exists b, mem s a = Some b /\ zlen b = ctotal s) /\
  (exists pool, NoDup pool /\ (forall a, mem s a <> None <-> In a live \/ In a pool) /\ (forall a, In a live -> ~ In a pool) /\
     cfreesize s = u32 (zlen pool)) /\
  cusage s = u32 (zlen live) /\ callocated s = n_fresh tr /\ crecycled s = u32 (n_recycled tr).
Proof.
  intros (Hs & He & HR & Hf & Ha).
  pose proof (run_inv size minfree esize Hs He s live tr HR Hf Ha) as [_ ND MM LN FS US AL RE _ _ _ _ _].
  assert (forall a : Z, In a (cfree s) -> ~ In a live).
  { intros a H1 H2. eapply NoDup_app_disj; eauto. }
  split; [eapply NoDup_app_l; eauto|]. split; [|split; [|split; [|split]]]; auto.
  - intros a Hi. assert (mem s a <> None) by (apply MM; auto). destruct (mem s a) as [b|] eqn:E; [|congruence]. eauto.
  - exists (cfree s). split; [|split; [|split]]; auto.
    + clear - ND. induction live; auto. apply IHlive. now inversion ND.
    + intros a H1 H2. eapply H; eauto.
  - rewrite AL. unfold u32. apply Z.mod_small. unfold n_fresh, zlen in *. lia.
Qed.

(** C15: the pool never grows beyond what the policy allows: at least
    min_free_count blocks and a tenth of the blocks in use may wait in it *)
Theorem C15_free_keeps_pool_small s live tr a links s' r : history s live tr -> cop_ok s live (OFree a links) ->
  zlen live < 4294967296 -> zlen (cfree s) < 4294967296 ->
  cstep s (OFree a links) = Some (s', r) ->
  (cfree s' = cfree s ++ [a] /\ (zlen (cfree s) < minfree \/ zlen (cfree s) < zlen live / 10)) \/
  (cfree s' = cfree s /\ minfree <= zlen (cfree s) /\ zlen live / 10 <= zlen (cfree s) /\ mem s' a = None).
Proof.
  intros (Hs & He & HR & Hf & Ha) Ho L1 L2 E.
  pose proof (run_inv size minfree esize Hs He s live tr HR Hf Ha) as I.
  destruct I as [[_ [Mf _]] ND MM LN FS US AL RE _ _ _ _ _].
  cbn [cstep] in E. unfold class_free in E.
  assert (F : cfreesize s = zlen (cfree s)) by (rewrite FS; apply Z.mod_small; unfold zlen in *; lia).
  assert (U : cusage s = zlen live) by (rewrite US; apply Z.mod_small; unfold zlen in *; lia).
  rewrite F, U, Mf in E.
  destruct (Z.ltb_spec (zlen (cfree s)) minfree) as [C1|C1]; cbn [orb] in E.
  - destruct (poke (mem s) a links); [|discriminate]. injection E as <- <-. left. auto.
  - destruct (Z.ltb_spec (zlen (cfree s)) (zlen live / 10)) as [C2|C2].
    + destruct (poke (mem s) a links); [|discriminate]. injection E as <- <-. left. auto.
    + destruct (mem s a); [|discriminate]. injection E as <- <-. right. cbn. unfold upd. rewrite Z.eqb_refl. auto.
Qed.

(** C16: the ranges of all registered extensions lie behind the object, are aligned,
    lie inside of every block in use and do not overlap *)
Theorem C16_extensions_disjoint s live tr : history s live tr ->
  (forall e, In e (cexts s) -> 0 < esize e ->
     size <= fst (range_of s e) /\ fst (range_of s e) mod 16 = 0 /\ snd (range_of s e) = fst (range_of s e) + esize e /\
     forall a, In a live -> exists b, mem s a = Some b /\ snd (range_of s e) <= zlen b) /\
  (forall e f, In e (cexts s) -> In f (cexts s) -> e <> f -> 0 < esize e -> 0 < esize f ->
     disjoint (range_of s e) (range_of s f)).
Proof.
  intros H. pose proof (C15_counters_and_no_leak s live tr H) as (_ & BL & _).
  destruct H as (Hs & He & HR & Hf & Ha).
  pose proof (run_inv size minfree esize Hs He s live tr HR Hf Ha) as [[_ [_ Es]] ND MM LN FS US AL RE _ [TO TM] EN EX DI].
  split; auto. intros e Hi Se. destruct (EX e Hi Se) as (E1 & E2 & E3). unfold range_of. cbn [fst snd]. rewrite Es.
  split; auto. split; auto. split; auto. intros a La. destruct (BL a La) as (b & Eb & Lb). exists b. split; auto. lia.
Qed.

(** C16: registration fails exactly for an extension with memory of a class that has
    already allocated objects, and then changes nothing; otherwise it is registered *)
Theorem C16_registration_outcome s live tr e : history s live tr ->
  size + 31 + asked esize tr + esize e + 16 < 18446744073709551616 ->
  exists s' c, cstep s (OExtAdd e) = Some (s', RCode c) /\
    (c = 0 /\ In e (cexts s') \/ c = -1 /\ s' = s /\ 0 < esize e /\ n_fresh tr <> 0 /\ ~ In e (cexts s)) /\
    (forall a, In a live -> mem s' a = mem s a).
Proof.
  intros (Hs & He & HR & Hf & Ha) Ha2.
  pose proof (run_inv size minfree esize Hs He s live tr HR Hf Ha) as I.
  destruct (step_inv size minfree esize Hs He s live tr (OExtAdd e) I Logic.I Hf) as (s' & r & E & _ & P & U).
  { intro r. change (size + 31 + (asked esize tr + (esize e + 16)) < 18446744073709551616). lia. }
  destruct r as [| c |]; try contradiction. exists s', c. split; [exact E|]. split; [exact P|]. intros a Hi. now apply U.
Qed.
(** ... and it does not fail for a class that never allocated an object *)
Theorem C16_registration_before_first_object s live tr e : history s live tr ->
  size + 31 + asked esize tr + esize e + 16 < 18446744073709551616 -> n_fresh tr = 0 ->
  exists s', cstep s (OExtAdd e) = Some (s', RCode 0) /\ In e (cexts s').
Proof.
  intros H Ha E. destruct (C16_registration_outcome s live tr e H Ha) as (s' & c & E1 & [[-> P]|(_ & _ & _ & P & _)] & _).
  eauto. contradiction.
Qed.
End Props.

(** Finding: the links of the pool are written into the freed object, also when the
    objects have size zero and no room for them *)
Theorem C15_size_zero_refuted : exists live s,
  crun (class_add 0 10 (fun _ => 0)) s live [(OMalloc (Some 4096), RBlock (Some 4096) false)] /\
  cop_ok s live (OFree 4096 (repeat 1 16)) /\ cstep s (OFree 4096 (repeat 1 16)) = None.
Proof.
  eexists _, _. split.
  - eapply (crun_step _ (class_add 0 10 (fun _ => 0)) [] [] (OMalloc (Some 4096))).
    + constructor.
    + cbn. auto.
    + reflexivity.
  - split; [cbn; auto|]. vm_compute. reflexivity.
Qed.
(** Finding: the size of an extension is not checked; the object size wraps around *)
Theorem C16_huge_extension_refuted : exists esize s r,
  (forall e, 0 <= esize e < 18446744073709551616) /\
  cstep (class_add 40 10 esize) (OExtAdd 1) = Some (s, r) /\ r = RCode 0 /\ ctotal s < coffset s 1.
Proof.
  exists (fun _ => 18446744073709551600). eexists _, _. split; [lia|]. split; [vm_compute; reflexivity|].
  split; vm_compute; reflexivity.
Qed.

(** a history with two extensions, an exhausted heap, recycling and a rejected
    extension *)
Definition ex_esize (e : Z) : Z := if e =? 1 then 5 else if e =? 2 then 0 else if e =? 3 then 32 else 8.
Definition ex_ops : list cop :=
  [OExtAdd 1; OExtAdd 2; OExtAdd 3; OExtRemove 1; OExtAdd 4; OMalloc (Some 1000); OMalloc None; OMalloc (Some 2000); OWrite 1000 3 77; OFree 1000 (repeat 9 16);
   OMalloc (Some 3000); OExtAdd 1; OFree 1000 (repeat 9 16); OFree 2000 (repeat 9 16)].
Definition cop_okb (s : cstate) (live : list Z) (o : cop) : bool :=
  match o with
  | OMalloc (Some a) => negb (is_block s a)
  | OMalloc None => true
  | OFree a links => existsb (Z.eqb a) live && (length links =? 16)%nat
  | OWrite a off v => existsb (Z.eqb a) live && (0 <=? off) && (off <? ctotal s)
  | OExtAdd _ | OExtRemove _ => true
  end.
Lemma cop_okb_ok s live o : cop_okb s live o = true -> cop_ok s live o.
Proof.
  destruct o as [[a|]|a links|a off v|e|e]; cbn; auto.
  - unfold is_block. intros H b [= <-]. destruct (mem s a); auto. discriminate.
  - intros _ b E. discriminate.
  - intro H. apply andb_true_iff in H as [H1 H2]. split. now apply existsb_in. now apply Nat.eqb_eq.
  - intro H. apply andb_true_iff in H as [H H3]. apply andb_true_iff in H as [H1 H2].
    split. now apply existsb_in. split. now apply Z.leb_le. now apply Z.ltb_lt.
Qed.
Fixpoint ex_run (s : cstate) (live : list Z) (tr : list (cop * cres)) (l : list cop) : option (cstate * list Z * list (cop * cres)) :=
  match l with
  | [] => Some (s, live, tr)
  | o :: l =>
    if cop_okb s live o then
      match cstep s o with Some (s, r) => ex_run s (live_step live o r) ((o, r) :: tr) l | None => None end
    else None
  end.
Lemma ex_run_crun s0 l : forall s live tr, crun s0 s live tr ->
  forall s' live' tr', ex_run s live tr l = Some (s', live', tr') -> crun s0 s' live' tr'.
Proof.
  induction l as [|o l IH]; intros s live tr HR s' live' tr' E; cbn in E.
  - injection E as <- <- <-. exact HR.
  - destruct (cop_okb s live o) eqn:Ho; [|discriminate]. destruct (cstep s o) as [[s1 r]|] eqn:E1; [|discriminate].
    eapply IH; [|exact E]. econstructor; eauto using cop_okb_ok.
Qed.
Definition show (x : cstate * list Z * list (cop * cres)) :=
  let '(s, live, tr) := x in
  (map snd (rev tr), live, cfree s, cexts s, map (range_of s) (cexts s), (ctotal s, cusage s, cfreesize s, callocated s, crecycled s)).
Example C15_ex : option_map show (ex_run (class_add 20 1 ex_esize) [] [] ex_ops) =
  Some ([RCode 0; RCode 0; RCode 0; RNone; RCode 0; RBlock (Some 1000) false; RBlock None false; RBlock (Some 2000) false; RNone; RNone;
         RBlock (Some 1000) true; RCode (-1); RNone; RNone],
        [], [1000], [2; 3; 4], [(0, 0); (48, 80); (80, 88)], (96, 0, 1, 2, 1)).
Proof. vm_compute. reflexivity. Qed.
(** the hypotheses of the theorems hold for it (here: up to the first free) *)
Example C16_ex : exists s live tr, history 20 1 ex_esize s live tr /\ live = [2000; 1000] /\ cexts s = [2; 3; 4] /\
  ex_run (class_add 20 1 ex_esize) [] [] (firstn 9 ex_ops) = Some (s, live, tr) /\ cop_ok s live (OFree 1000 (repeat 9 16)).
Proof.
  destruct (ex_run (class_add 20 1 ex_esize) [] [] (firstn 9 ex_ops)) as [[[s live] tr]|] eqn:E.
  2:{ exfalso. assert (X : match ex_run (class_add 20 1 ex_esize) [] [] (firstn 9 ex_ops) with Some _ => true | None => false end = true) by (vm_compute; reflexivity).
      rewrite E in X. discriminate. }
  assert (X : option_map (fun x => (snd (fst x), cexts (fst (fst x)), n_fresh (snd x), asked ex_esize (snd x))) (Some (s, live, tr)) = Some ([2000; 1000], [2; 3; 4], 2, 109)).
  { rewrite <- E. vm_compute. reflexivity. }
  cbn in X. injection X as E1 E2 E3 E4.
  exists s, live, tr. split; [|split; [exact E1|split; [exact E2|split; [reflexivity|rewrite E1; cbn; auto]]]].
  split; [lia|]. split.
  { intro e. unfold ex_esize. destruct (e =? 1); [lia|]. destruct (e =? 2); [lia|]. destruct (e =? 3); lia. }
  split; [|split; [rewrite E3; reflexivity|]].
  - exact (ex_run_crun _ _ _ [] [] (crun_init _) _ _ _ E).
  - unfold asked. rewrite E4. reflexivity.
Qed.

Print Assumptions C15_blocks_exclusive_and_zero.
Print Assumptions C15_counters_and_no_leak.
Print Assumptions C15_free_keeps_pool_small.
Print Assumptions C16_extensions_disjoint.
Print Assumptions C16_registration_outcome.
Print Assumptions C16_registration_before_first_object.
Print Assumptions C15_size_zero_refuted.
Print Assumptions C16_huge_extension_refuted.
