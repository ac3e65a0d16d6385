(** Properties of the start, the stop and the names of subsystems (C126-C128). *)
From Verif Require Import Base StrBase SubsModel SubsProofs.
From Coq Require String.

(** some subsystems: [a] needs [b] and [c], [b] needs [c] *)
Definition pl (n : String.string) (ds : list name) (can : bool) : plug := {| p_name := zs n; p_deps := ds; p_can := can; p_down := false; p_on := false; p_unl := false; p_miss := false |}.
Arguments pl _%string_scope _ _.
Definition three : list op := [Hook (pl "a" [zs "b"; zs "c"] true); Hook (pl "b" [zs "c"] true); Hook (pl "c" [] true)].
Definition all_ok (_ : list event) (_ : name) : bool := true.

(** ** C126: start *)
(** For all histories of loading, starting, unloading of subsystems and whatever
    the callbacks answer: every operation ends, a subsystem is started only when
    all its dependencies are started and it is not, and stopped only when no started
    one depends on it; a start has result 0 if and only if the subsystem is started
    afterwards, stops nothing and starts only the subsystem and its dependencies.
    Missing: names of dependencies must be spelled as the subsystem spells its own
    name (see [C127_case_refuted]); a dependency that exists can be refused (see
    [C126_stale_mark_refuted]). *)
Theorem C126_start_partial io os : canon (hooked os) ->
  exists s, run io os init = Some s /\ good (s_log s) /\
  (forall k ds, In (k, ds) (active (s_log s)) <-> exists p, In p (s_tree s) /\ p_on p = true /\ k = key (p_name p) /\ ds = map key (p_deps p)) /\
  forall n p, get n (s_tree s) = Some p -> exists r s' l,
    step io (Start n) s = Some (r, s') /\ good (s_log s') /\ (r = 0 <-> is_active (s_log s') (key n)) /\
    s_log s' = l ++ s_log s /\ (forall k, ~ In (Stopped k) l) /\
    forall k ds, In (Started k ds) l -> exists q, In q (s_tree s) /\ k = key (p_name q) /\ reach (s_tree s) n (p_name q).
Proof.
  intros CU. destruct (run_ok io (hooked os) os CU init) as (s & E & H); [auto|apply inv_init|]. exists s. split; [exact E|]. split; [apply (i_good _ _ H)|]. split; [apply (i_active _ _ H)|].
  intros n p G. cbn [step]. rewrite G. destruct (init_plugin_ok io (hooked os) (depth s) n s p H G) as (r & s' & E' & H' & RR & GR & R0 & RN & (l & L & Q)).
  { pose proof (free_upd n (s_tree s)). pose proof (free_len (s_tree s)). unfold depth. lia. }
  exists r, s', l. split; [exact E'|]. split; [apply (i_good _ _ H')|]. split; [|split; [exact L|split; [exact Q|]]].
  - rewrite (active_on _ s' n H'). split; [intros X; apply R0, X|]. intros X. destruct (Z.eqb_spec r 0); [assumption|]. elim (RN n0 X).
  - intros k ds X.
    assert (forall x y, good (x ++ y) -> quiet_log x -> In (Started k ds) x -> is_active (x ++ y) k /\ ~ is_active y k) as A.
    { clear. induction x as [|e x IH]; intros y GD QU [].
      - subst e. cbn [app good active] in *. destruct GD as (A & B & C). split; [left; reflexivity|]. intros Y. apply B. clear - Y QU. assert (quiet_log x) as QX by (intros z Z1; apply (QU z); right; exact Z1). clear QU. induction x as [|e x IH]; [exact Y|]. assert (quiet_log x) as QX' by (intros z Z1; apply (QX z); right; exact Z1). specialize (IH QX'). destruct e as [m d|m|m]; unfold is_active in *; cbn [app active map In]; [auto|exact IH|]. elim (QX m). left. reflexivity.
      - assert (quiet_log x) as QX by (intros z Z1; apply (QU z); right; exact Z1). destruct e as [m d|m|m]; unfold is_active in *; cbn [app good active map In] in *.
        + destruct (IH y ltac:(tauto) QX H). auto. + apply (IH y); tauto. + elim (QU m). left. reflexivity. }
    pose proof (i_good _ _ H') as GG. rewrite L in GG. destruct (A l (s_log s) GG Q X) as [A1 A2]. rewrite <- L in A1.
    unfold is_active in A1. apply in_map_iff in A1 as ([k' ds'] & KE & A1). cbn in KE. subst k'. apply (i_active _ _ H') in A1 as (q & Q1 & Q2 & Q3 & Q4).
    destruct (rel_in' _ _ _ _ GR Q1) as (a & B1 & (B2 & B3 & _) & B4 & B5 & _). exists a. split; [exact B1|]. split; [congruence|]. destruct (B5 Q2) as [O|RE]; [|exact RE].
    exfalso. apply A2. rewrite Q3, <- B2. apply (active_on _ s (p_name a) H). exists a. split; [apply get_in; [apply (i_nodup _ _ H)|exact B1|reflexivity]|exact O].
Qed.
(** When all callbacks succeed, no mark of an earlier failure is left, every
    dependency of the subsystem (and of its dependencies) is loaded and there is no
    circle, then it is started. *)
Theorem C126_start_complete io os n p s (rank : name -> nat) : (forall l m, io l m = true) -> canon (hooked os) -> run io os init = Some s -> get n (s_tree s) = Some p ->
  (forall q, In q (s_tree s) -> p_miss q = false) ->
  (forall q d, In q (s_tree s) -> reach (s_tree s) n (p_name q) -> In d (p_deps q) -> (exists x, In x (s_tree s) /\ key (p_name x) = key d) /\ (rank (key d) < rank (key (p_name q)))%nat) ->
  exists s', step io (Start n) s = Some (0, s') /\ is_active (s_log s') (key n).
Proof.
  intros AL CU E G NM RD. destruct (C126_start_partial io os CU) as (s0 & E0 & _ & _ & H0). assert (s0 = s) as -> by congruence. destruct (H0 n p G) as (r & s' & l & ES & _ & RI & _). clear H0.
  destruct (run_ok io (hooked os) os CU init) as (s1 & E1 & H); [auto|apply inv_init|]. assert (s1 = s) as -> by congruence.
  assert (r = 0) as ->; [|exists s'; split; [exact ES|apply RI; reflexivity]]. cbn [step] in ES. rewrite G in ES.
  refine (init_plugin_total io (hooked os) (fun k => exists m, key m = k /\ reach (s_tree s) n m) rank AL (depth s) n s p r s' H G _ _ _ _ ES).
  - pose proof (free_upd n (s_tree s)). pose proof (free_len (s_tree s)). unfold depth. lia.
  - exists n. split; [reflexivity|constructor; reflexivity].
  - intros q QI (m & M1 & M2) d D. assert (reach (s_tree s) n (p_name q)) as RQ by (apply (reach_trans _ n m); [exact M2|constructor; exact M1]).
    destruct (RD q d QI RQ D) as ((x & X1 & X2) & Y). split; [exists d; split; [reflexivity|]; apply (reach_trans _ n (p_name q)); [exact RQ|]; apply (reach_step _ _ q d); [exact QI|reflexivity|exact D|constructor; reflexivity]|].
    split; [exists x; apply get_in; [apply (i_nodup _ _ H)|exact X1|exact X2]|exact Y].
  - intros q QI _ M. rewrite (NM q QI) in M. discriminate.
Qed.
(** operations that succeed leave no marks *)
Theorem C126_no_marks io os o s s' : canon (hooked os) -> run io os init = Some s -> (forall q, In q (s_tree s) -> p_miss q = false) ->
  step io o s = Some (0, s') -> forall q, In q (s_tree s') -> p_miss q = false.
Proof.
  intros CU E NM ES q QI. destruct (run_ok io (hooked os) os CU init) as (s1 & E1 & H); [auto|apply inv_init|]. assert (s1 = s) as -> by congruence. clear E1.
  destruct o as [p|n|n|n|]; cbn [step] in ES.
  - injection ES as <-. unfold hook in QI. destruct (get (p_name p) (s_tree s)); [apply NM, QI|]. cbn in QI. apply in_app_or in QI as [X|[<-|[]]]; [apply NM, X|reflexivity].
  - destruct (get n (s_tree s)) as [p|] eqn:G; [|discriminate]. destruct (init_plugin_ok io (hooked os) (depth s) n s p H G) as (r & s2 & E' & _ & _ & _ & R0 & _).
    { pose proof (free_upd n (s_tree s)). pose proof (free_len (s_tree s)). unfold depth. lia. }
    rewrite E' in ES. injection ES as -> ->. destruct (R0 eq_refl) as [_ K]. destruct (rel_in' _ _ _ _ K QI) as (a & A1 & _ & A2). unfold keepm in A2. rewrite A2, (NM a A1). destruct (keqb (p_name a) n); reflexivity.
  - destruct (get n (s_tree s)) as [p|] eqn:G; [|discriminate]. injection ES as <-. destruct (p_down p); [|apply NM, QI]. cbn in QI. unfold upd in QI. apply in_map_iff in QI as (a & <- & A). destruct (keqb (p_name a) n); cbn; apply NM, A.
  - destruct (get n (s_tree s)) as [p|] eqn:G; [|discriminate]. destruct (p_down p && negb (p_unl p)); [discriminate|]. destruct (unload_ok (hooked os) s n p false CU H G) as (r & s2 & E' & _ & [(-> & _)|(-> & (A & B & C & _) & _)]); [congruence|]. assert (s2 = s') as -> by congruence.
    assert (In (p_name q) (map p_name (s_tree s'))) as X by (apply in_map, QI). rewrite C in X. apply in_map_iff in X as (z & Z1 & Z2). apply gone_in in Z2 as [Z2 Z3]. destruct (B z Z2 Z3) as (q' & Q1 & (Q2 & _) & Q4 & _).
    assert (q' = q) as ->; [|rewrite Q4; apply NM, Z2].
    assert (Inv (hooked os) s') as H' by (destruct (unload_ok (hooked os) s n p false CU H G) as (r & s3 & E3 & H3 & _); congruence).
    assert (get (p_name q) (s_tree s') = Some q) by (apply get_in; [apply (i_nodup _ _ H')|exact QI|reflexivity]). assert (get (p_name q) (s_tree s') = Some q') by (apply get_in; [apply (i_nodup _ _ H')|exact Q1|congruence]). congruence.
  - destruct (finish_ok (hooked os) CU (map p_name (s_tree s)) s H) as (s2 & E2 & _ & X & _); [rewrite map_map; apply (i_nodup _ _ H)|apply names_ok, (i_nodup _ _ H)|]. rewrite E2 in ES. injection ES as ->.
    destruct (X q QI) as (X1 & p0 & X2 & X3). elim X1. rewrite <- X3. apply in_map, in_map, X2.
Qed.
Ltac canon_tac := intros ? ? ? P Q D K; cbn in P, Q; repeat (destruct P as [<-|P]; [|]); try contradiction; repeat (destruct Q as [<-|Q]; [|]); try contradiction; cbn in D; repeat (destruct D as [<-|D]; [|]); try contradiction; vm_compute in K |- *; congruence.
Example C126_ex : canon (hooked (three ++ [Start (zs "A")])) /\
  match run all_ok (three ++ [Start (zs "A")]) init with
  | Some s => s_log s = [Started (zs "a") [zs "b"; zs "c"]; Started (zs "b") [zs "c"]; Started (zs "c") []]
  | None => False end.
Proof. split; [canon_tac|reflexivity]. Qed.
Example C126_complete_ex : exists s p (rank : name -> nat), canon (hooked three) /\ run all_ok three init = Some s /\ get (zs "a") (s_tree s) = Some p /\ (forall q, In q (s_tree s) -> p_miss q = false) /\
  (forall q d, In q (s_tree s) -> reach (s_tree s) (zs "a") (p_name q) -> In d (p_deps q) -> (exists x, In x (s_tree s) /\ key (p_name x) = key d) /\ (rank (key d) < rank (key (p_name q)))%nat).
Proof.
  eexists. eexists. exists (fun k => if str_eqb k (zs "a") then 2%nat else if str_eqb k (zs "b") then 1%nat else 0%nat). split; [canon_tac|]. split; [reflexivity|]. split; [reflexivity|]. split.
  - intros q [<-|[<-|[<-|[]]]]; reflexivity.
  - intros q d [<-|[<-|[<-|[]]]] _ D; cbn in D; repeat (destruct D as [<-|D]); try contradiction; (split; [|vm_compute; lia]); cbn [s_tree].
    + eexists. split; [right; left; reflexivity|reflexivity].
    + eexists. split; [right; right; left; reflexivity|reflexivity].
    + eexists. split; [right; right; left; reflexivity|reflexivity].
Qed.
(** Refuted: a failure leaves its mark.  [b] was started once when [c] was not
    loaded; now [c] is loaded, all callbacks succeed, there is no circle, and [a],
    which needs only [b], is refused with a "circular dependency" (oonf_subsystem.c:401-404),
    although [b] itself would start. *)
Theorem C126_stale_mark_refuted : exists os s, canon (hooked os) /\ run all_ok os init = Some s /\
  (exists s', step all_ok (Start (zs "a")) s = Some (1, s') /\ ~ is_active (s_log s') (zs "a")) /\
  (exists s' s'', step all_ok (Start (zs "b")) s = Some (0, s') /\ step all_ok (Start (zs "a")) s' = Some (0, s'')) /\
  (forall q d, In q (s_tree s) -> In d (p_deps q) -> exists x, In x (s_tree s) /\ key (p_name x) = key d).
Proof.
  exists [Hook (pl "a" [zs "b"] true); Hook (pl "b" [zs "c"] true); Start (zs "b"); Hook (pl "c" [] true)]. eexists. split; [canon_tac|]. split; [reflexivity|].
  split; [eexists; split; [reflexivity|intros []]|]. split; [eexists; eexists; split; reflexivity|].
  intros q d [<-|[<-|[<-|[]]]] D; cbn in D; repeat (destruct D as [<-|D]); try contradiction; cbn [s_tree].
  - eexists. split; [right; left; reflexivity|reflexivity].
  - eexists. split; [right; right; left; reflexivity|reflexivity].
Qed.

(** ** C127: stop *)
(** In all these states: a request to unload either changes nothing, or removes the
    subsystem after stopping it and exactly those that depend on it (also through
    others); those are stopped before it.  The end stops everything and empties the
    tree.  Missing: spelling of dependencies, and the subsystems stopped may be ones
    that cannot be stopped (see [C127_cannot_refuted]). *)
Theorem C127_stop_partial io os : canon (hooked os) ->
  exists s, run io os init = Some s /\
  (forall n p, get n (s_tree s) = Some p -> exists r s' l, step io (Unload n) s = Some (r, s') /\ good (s_log s') /\ s_log s' = l ++ s_log s /\
     ((r = -1 /\ s' = s /\ (p_can p = false \/ (p_down p = true /\ p_unl p = false))) \/
      (r = 0 /\ p_can p = true /\ (p_down p = true -> p_unl p = true) /\ get n (s_tree s') = None /\ ~ is_active (s_log s') (key n) /\ (forall e, In e l -> exists k, e = Stopped k) /\
       forall q, In q (s_tree s) -> key (p_name q) <> key n ->
         (exists q', In q' (s_tree s') /\ p_name q' = p_name q /\ p_deps q' = p_deps q) /\
         (is_active (s_log s') (key (p_name q)) <-> is_active (s_log s) (key (p_name q)) /\ ~ reach (s_tree s) (p_name q) n)))) /\
  exists s', step io Finish s = Some (0, s') /\ good (s_log s') /\ s_tree s' = [] /\ active (s_log s') = [].
Proof.
  intros CU. destruct (run_ok io (hooked os) os CU init) as (s & E & H); [auto|apply inv_init|]. exists s. split; [exact E|]. split.
  - intros n p G. cbn [step]. rewrite G. destruct (p_down p && negb (p_unl p)) eqn:PD.
    { exists (-1), s, []. split; [reflexivity|]. split; [apply (i_good _ _ H)|]. split; [reflexivity|]. left. split; [reflexivity|]. split; [reflexivity|]. right. destruct (p_down p), (p_unl p); cbn in PD; try discriminate. auto. }
    destruct (unload_ok (hooked os) s n p false CU H G) as (r & s' & ES & H' & [(-> & -> & A & _)|(-> & (A & B & C & (l & L & Q)) & PC)]).
    { exists (-1), s, []. split; [exact ES|]. split; [apply (i_good _ _ H)|]. split; [reflexivity|]. left. auto. }
    exists 0, s', l. split; [exact ES|]. split; [apply (i_good _ _ H')|]. split; [exact L|]. right. split; [reflexivity|]. split; [destruct PC; [assumption|discriminate]|]. split; [intros X; rewrite X in PD; destruct (p_unl p); [reflexivity|discriminate]|].
    assert (get n (s_tree s') = None) as GN by (destruct (get n (s_tree s')) as [q|] eqn:GQ; [|reflexivity]; apply get_some in GQ as [Q1 Q2]; elim (A q Q1 Q2)).
    split; [exact GN|]. split; [rewrite (active_on _ s' n H'); intros (q & X & _); congruence|]. split; [exact Q|].
    intros q QI QK. destruct (B q QI QK) as (q' & Q1 & (Q2 & Q3 & _) & _ & Q4). split; [exists q'; auto|].
    rewrite (active_on _ s (p_name q) H). rewrite Q2 at 1. rewrite (active_on _ s' (p_name q') H').
    assert (get (p_name q) (s_tree s) = Some q) as G1 by (apply get_in; [apply (i_nodup _ _ H)|exact QI|reflexivity]).
    assert (get (p_name q') (s_tree s') = Some q') as G2 by (apply get_in; [apply (i_nodup _ _ H')|exact Q1|reflexivity]).
    unfold on. rewrite G1, G2. split.
    + intros (x & X1 & X2). injection X1 as <-. apply Q4 in X2 as [X2 X3]. split; [eauto|exact X3].
    + intros ((x & X1 & X2) & X3). injection X1 as <-. exists q'. split; [reflexivity|]. apply Q4. auto.
  - cbn [step]. destruct (finish_ok (hooked os) CU (map p_name (s_tree s)) s H) as (s' & E2 & H' & X & _); [rewrite map_map; apply (i_nodup _ _ H)|apply names_ok, (i_nodup _ _ H)|]. rewrite E2. exists s'. split; [reflexivity|]. split; [apply (i_good _ _ H')|].
    assert (s_tree s' = []) as TN.
    { destruct (s_tree s') as [|q t] eqn:T; [reflexivity|]. destruct (X q (or_introl eq_refl)) as (X1 & p0 & X2 & X3). elim X1. rewrite <- X3. apply in_map, in_map, X2. }
    split; [exact TN|]. destruct (active (s_log s')) as [|[k ds] l] eqn:AE; [reflexivity|]. assert (In (k, ds) (active (s_log s'))) as Y by (rewrite AE; left; reflexivity). apply (i_active _ _ H') in Y as (p & P & _). rewrite TN in P. destruct P.
Qed.
Example C127_ex : canon (hooked (three ++ [Start (zs "a"); Unload (zs "b")])) /\
  match run all_ok (three ++ [Start (zs "a"); Unload (zs "b")]) init with
  | Some s => firstn 2 (s_log s) = [Stopped (zs "b"); Stopped (zs "a")] /\ is_active (s_log s) (zs "c") /\ map p_name (s_tree s) = [zs "a"; zs "c"]
  | None => False end.
Proof. split; [canon_tac|]. vm_compute. auto. Qed.
(** Refuted: names are compared without case when a dependency is started
    (strcasecmp in the tree) but with case when it is stopped (strcmp,
    oonf_subsystem.c:456): [a] needs "B"; [b] is stopped and removed, and [a]
    keeps running. *)
Theorem C127_case_refuted : exists os s s', run all_ok os init = Some s /\ good (s_log s) /\ is_active (s_log s) (zs "a") /\
  step all_ok (Unload (zs "b")) s = Some (0, s') /\ is_active (s_log s') (zs "a") /\ ~ is_active (s_log s') (zs "b") /\ ~ good (s_log s') /\ get (zs "b") (s_tree s') = None.
Proof.
  exists [Hook (pl "a" [zs "B"] true); Hook (pl "b" [] true); Start (zs "a")]. eexists. eexists. split; [reflexivity|].
  split; [vm_compute; intuition (subst; auto; try congruence)|]. split; [left; reflexivity|]. split; [reflexivity|]. split; [left; reflexivity|]. split; [vm_compute; intuition congruence|]. split; [|reflexivity].
  intros (_ & _ & X). apply (X (zs "a") [zs "b"]); left; reflexivity.
Qed.
(** Refuted: a subsystem that must not be stopped (can_cleanup is false; a request to
    unload it is refused) is stopped when something it depends on is unloaded. *)
Theorem C127_cannot_refuted : exists os s s', canon (hooked os) /\ run all_ok os init = Some s /\ is_active (s_log s) (zs "a") /\
  step all_ok (Unload (zs "a")) s = Some (-1, s) /\ step all_ok (Unload (zs "b")) s = Some (0, s') /\ ~ is_active (s_log s') (zs "a").
Proof.
  exists [Hook (pl "a" [zs "b"] false); Hook (pl "b" [] true); Start (zs "a")]. eexists. eexists. split; [canon_tac|]. split; [reflexivity|]. split; [left; reflexivity|]. split; [reflexivity|]. split; [reflexivity|]. intros [].
Qed.

(** ** C128: names of libraries *)
Lemma strrchr_none c s : ~ In c s -> strrchr c s = None.
Proof. induction s as [|x s IH]; cbn [strrchr In]; [reflexivity|]. intros N. rewrite IH by tauto. destruct (Z.eqb_spec x c); [tauto|reflexivity]. Qed.
(** A plain name (no path, neither the prefix nor the postfix of a library) of at
    most 31 characters is the name; a longer one gives the empty name.  Missing:
    everything else (see the refutations). *)
Theorem C128_plain_partial prefix postfix lib : ~ In 47 lib -> ~ In 92 lib -> startswith_nocase lib prefix = false -> endswith_nocase lib postfix = false -> zlen lib < 2 ^ 63 ->
  extract_name prefix postfix lib = if zlen lib <=? 31 then Name lib else Name [].
Proof.
  intros A B C D E. unfold extract_name. rewrite (strrchr_none 47 lib A), (strrchr_none 92 lib B). change (Z.to_nat 0) with 0%nat. rewrite ?skipn_O. rewrite C. change (Z.to_nat 0) with 0%nat. rewrite ?skipn_O, D. pose proof (zlen_nonneg lib).
  unfold u64. rewrite Z.sub_0_r, !Z.mod_small by lia. unfold NAMESIZE. destruct (Z.leb_spec (zlen lib + 1) 32), (Z.leb_spec (zlen lib) 31); try lia; [|reflexivity].
  destruct (Z.leb_spec (zlen lib) 32); [|lia]. unfold zlen. rewrite Nat2Z.id, firstn_all. reflexivity.
Qed.
Example C128_ex : extract_name (zs "liboonf_") (zs ".so") (zs "dlep") = Name (zs "dlep").
Proof. reflexivity. Qed.
(** a file name with the prefix, without a path and without the postfix *)
Theorem C128_prefix prefix postfix n : ~ In 47 (prefix ++ n) -> ~ In 92 (prefix ++ n) -> endswith_nocase n postfix = false -> zlen (prefix ++ n) < 2 ^ 63 ->
  extract_name prefix postfix (prefix ++ n) = if zlen n <=? 31 then Name n else Name [].
Proof.
  intros A B D E. unfold extract_name. rewrite (strrchr_none 47 _ A), (strrchr_none 92 _ B). change (Z.to_nat 0) with 0%nat. rewrite ?skipn_O.
  assert (startswith_nocase (prefix ++ n) prefix = true) as ->.
  { unfold startswith_nocase. rewrite firstn_app, Nat.sub_diag, firstn_all, firstn_O, app_nil_r. destruct (str_eqb_spec (map tolower prefix) (map tolower prefix)); congruence. }
  assert (zlen (prefix ++ n) = zlen prefix + zlen n) as LE by (unfold zlen; rewrite app_length; lia). pose proof (zlen_nonneg prefix). pose proof (zlen_nonneg n).
  rewrite LE in *. rewrite !Z.add_0_l. assert (u64 (zlen prefix) = zlen prefix) as UP by (unfold u64; apply Z.mod_small; lia). assert (u64 (zlen n) = zlen n) as UN by (unfold u64; apply Z.mod_small; lia). assert (u64 (zlen n + 1) = zlen n + 1) as UN1 by (unfold u64; apply Z.mod_small; lia). rewrite !UP.
  assert (skipn (Z.to_nat (zlen prefix)) (prefix ++ n) = n) as -> by (unfold zlen; rewrite Nat2Z.id, skipn_app, skipn_all, Nat.sub_diag; reflexivity). rewrite D.
  replace (zlen prefix + zlen n - zlen prefix) with (zlen n) by lia. rewrite UN1, UN. unfold NAMESIZE. destruct (Z.leb_spec (zlen n + 1) 32), (Z.leb_spec (zlen n) 31); try lia; [|reflexivity].
  destruct (Z.leb_spec (zlen n) 32); [|lia]. unfold zlen. rewrite Nat2Z.id, firstn_all. reflexivity.
Qed.
Example C128_prefix_ex : extract_name (zs "liboonf_") (zs ".so") (zs "liboonf_nhdp") = Name (zs "nhdp").
Proof. reflexivity. Qed.
(** Refuted: of a path the slash stays (start is the position of the slash itself,
    oonf_subsystem.c:267-272), so the prefix is not found either. *)
Theorem C128_path_refuted : exists lib n, lib = zs "/usr/lib/liboonf_nhdp" /\ n = zs "/liboonf_nhdp" /\ extract_name (zs "liboonf_") (zs ".so") lib = Name n /\ n <> zs "nhdp".
Proof. eexists. eexists. split; [reflexivity|]. split; [reflexivity|]. split; [reflexivity|vm_compute; discriminate]. Qed.
(** Refuted: the length of the prefix is taken off for the postfix
    (oonf_subsystem.c:280-282).  "liboonf_nhdp.so" has the length 15, minus 8 for the
    postfix gives the end 7 before the start 8: size_t arithmetic makes the length
    2^64-1, its successor is 0 and passes the check, and all of memory is copied. *)
Theorem C128_file_refuted : extract_name (zs "liboonf_") (zs ".so") (zs "liboonf_nhdp.so") = Overflow (2 ^ 64 - 1) /\
  extract_name (zs "liboonf_") (zs ".so") (zs "liboonf_http.so") = Overflow (2 ^ 64 - 1) /\
  extract_name (zs "liboonf_") (zs ".so") (zs "liboonf_olsrv2.so") = Name (zs "o") /\
  extract_name (zs "liboonf_") (zs ".so") (zs "dlep.so") = Overflow (2 ^ 64 - 1) /\
  extract_name (zs "liboonf_") (zs ".so") (zs "viewer.so") = Name (zs "v").
Proof. repeat split; vm_compute; reflexivity. Qed.
(** ... which happens for every name of four characters, with a postfix of three and
    any prefix of eight *)
Theorem C128_overflow_always prefix postfix n : zlen prefix = 8 -> zlen postfix = 3 -> zlen n = 4 -> ~ In 47 (prefix ++ n ++ postfix) -> ~ In 92 (prefix ++ n ++ postfix) ->
  extract_name prefix postfix (prefix ++ n ++ postfix) = Overflow (2 ^ 64 - 1).
Proof.
  intros LP LQ LN A B. unfold extract_name. rewrite (strrchr_none 47 _ A), (strrchr_none 92 _ B). change (Z.to_nat 0) with 0%nat. rewrite ?skipn_O.
  assert (startswith_nocase (prefix ++ n ++ postfix) prefix = true) as ->.
  { unfold startswith_nocase. rewrite firstn_app, Nat.sub_diag, firstn_all, firstn_O, app_nil_r. destruct (str_eqb_spec (map tolower prefix) (map tolower prefix)); congruence. }
  rewrite LP. change (u64 (0 + 8)) with 8. assert (length prefix = 8%nat) as LP' by (unfold zlen in LP; lia). assert (length n = 4%nat) as LN' by (unfold zlen in LN; lia).
  assert (skipn (Z.to_nat 8) (prefix ++ n ++ postfix) = n ++ postfix) as -> by (rewrite skipn_app, LP'; change (Z.to_nat 8) with 8%nat; rewrite <- LP' at 1; rewrite skipn_all; reflexivity).
  assert (zlen (prefix ++ n ++ postfix) = 15) as -> by (unfold zlen in *; rewrite !app_length; lia).
  assert (endswith_nocase (n ++ postfix) postfix = true) as ->; [|reflexivity].
  unfold endswith_nocase. assert (zlen (n ++ postfix) = 7) as -> by (unfold zlen in *; rewrite !app_length; lia). rewrite LQ. change (Z.to_nat (7 - 3)) with 4%nat. rewrite skipn_app, LN', Nat.sub_diag. rewrite <- LN' at 1. rewrite skipn_all. cbn [app skipn].
  unfold strcase_eqb. change (3 <? 7) with true. cbn [andb]. destruct (str_eqb_spec (map tolower postfix) (map tolower postfix)); congruence.
Qed.

Print Assumptions C126_start_partial.
Print Assumptions C126_start_complete.
Print Assumptions C126_no_marks.
Print Assumptions C126_stale_mark_refuted.
Print Assumptions C127_stop_partial.
Print Assumptions C127_case_refuted.
Print Assumptions C127_cannot_refuted.
Print Assumptions C128_plain_partial.
Print Assumptions C128_prefix.
Print Assumptions C128_path_refuted.
Print Assumptions C128_file_refuted.
Print Assumptions C128_overflow_always.
