(** The configuration database as a map. *)
From Verif Require Import Base BitsModel StrBase BufLemmas SplitLemmas CompModel CompProofs StringModel StringSpec StringProofs StringArrProofs CfgModel CfgSpec CfgTree.

Definition goodv (a : strarray) : Prop := exists ws, ws <> [] /\ Forall text ws /\ reps a ws.
Definition wfe : entries -> Prop := okt true goodv.
Definition wfn : names -> Prop := okt false wfe.
Definition wf : cfgdb -> Prop := okt true wfn.

Lemma text_nonul s : text s -> no_nul s.
Proof. unfold text, no_nul. apply Forall_impl. intros. lia. Qed.

(** * Values *)
Lemma strings_from a : forall ws pre, reps a (pre ++ ws) ->
  fold_right (fun o acc => match sa_string a o, acc with Some s, Some l => Some (s :: l) | _, _ => None end) (Some []) (offs (zlen (flat pre)) ws) = Some ws.
Proof.
  induction ws as [|s ws IH]; intros pre R; auto. cbn [offs fold_right].
  assert (sa_string a (zlen (flat pre)) = Some s) as ->.
  { pose proof (string_reps a (pre ++ s :: ws) (zlen pre) s R) as Q. 
    replace (Z.to_nat (zlen pre)) with (length pre) in Q by (unfold zlen; lia). rewrite firstn_app, Nat.sub_diag, firstn_all, firstn_O, app_nil_r in Q.
    apply Q. apply zget_split. reflexivity. }
  specialize (IH (pre ++ [s])). rewrite <- app_assoc in IH. specialize (IH R). rewrite flat_app, zlen_app in IH.
  replace (zlen (flat pre) + zlen s + 1) with (zlen (flat pre) + zlen (flat [s])).
  2:{ rewrite flat_len. change (flat []) with (@nil Z). rewrite (@zlen_nil Z). lia. }
  now rewrite IH.
Qed.
Lemma strings_reps a ws : reps a ws -> strings a = Some ws.
Proof. intros R. unfold strings. rewrite (offsets_reps _ _ R). apply (strings_from a ws []). auto. Qed.
Lemma goodv_ws a : goodv a -> exists ws, strings a = Some ws /\ ws <> [] /\ Forall text ws /\ reps a ws.
Proof. intros (ws & N & T & R). exists ws. rewrite (strings_reps _ _ R). auto. Qed.
Lemma reps_init : reps sa_init [].
Proof. repeat split; auto. Qed.

(** * Sections *)
Lemma find_wfn db t ns : wf db -> t_find db (Some t) = Some ns -> wfn ns.
Proof. intros W E. eapply find_P; eauto. Qed.
Lemma find_wfe db t n es : wf db -> find_section db t n = Some es -> wfe es.
Proof.
  unfold find_section. intros W E. destruct (t_find db (Some t)) as [ns|] eqn:F; [|discriminate]. eapply find_P; [|exact E].
  eapply find_wfn; eauto.
Qed.
Lemma find_good es e a : wfe es -> t_find es (Some e) = Some a -> goodv a.
Proof. intros W E. eapply find_P; [exact W|exact E]. Qed.

Definition has {A} (o : option A) : bool := if o then true else false.
(** the sections of [db'] are those of [db], but [es] for one section *)
Record changed (db db' : cfgdb) (t : bytes) (n : option bytes) (o : option entries) : Prop := {
  ch_wf : wf db';
  ch_sec : forall t' n', text t' -> text_name n' ->
     find_section db' t' n' = if same t t' && same_name n n' then o else find_section db t' n'
}.
Lemma put_changed db t n es es0 : wf db -> text t -> text_name n -> find_section db t n = Some es0 -> wfe es ->
  changed db (put_section db t n es) t n (Some es) /\ (forall t', text t' -> has (t_find (put_section db t n es) (Some t')) = has (t_find db (Some t'))).
Proof.
  intros W T N E We. unfold put_section, find_section in *. destruct (t_find db (Some t)) as [ns|] eqn:F; [|discriminate].
  assert (wfn (t_update ns n es)) as Wn by (apply update_ok; auto; eapply find_wfn; eauto).
  split; [split|].
  - apply update_ok; auto.
  - intros t' n' T' N'. unfold find_section. rewrite (update_find true wfn) by auto. cbn [same_name]. rewrite F. destruct (same t t') eqn:S1; auto.
    rewrite (update_find false wfe) by (auto; eapply find_wfn; eauto). rewrite E. cbn [andb]. destruct (same_name n n'); auto.
    rewrite <- (find_same true wfn db (Some t) (Some t')) by auto. now rewrite F.
  - intros t' T'. rewrite (update_find true wfn) by auto. cbn [same_name]. rewrite F. destruct (same t t') eqn:S1; auto.
    rewrite <- (find_same true wfn db (Some t) (Some t')) by auto. now rewrite F.
Qed.
Lemma drop_changed db t n es0 : wf db -> text t -> text_name n -> find_section db t n = Some es0 ->
  changed db (drop_section db t n) t n None /\ (forall t', text t' -> has (t_find (drop_section db t n) (Some t')) = has (t_find db (Some t'))).
Proof.
  intros W T N E. unfold drop_section, find_section in *. destruct (t_find db (Some t)) as [ns|] eqn:F; [|discriminate].
  assert (wfn (t_remove ns n)) as Wn by (apply remove_ok; auto; eapply find_wfn; eauto).
  split; [split|].
  - apply update_ok; auto.
  - intros t' n' T' N'. unfold find_section. rewrite (update_find true wfn) by auto. cbn [same_name]. rewrite F. destruct (same t t') eqn:S1; auto.
    rewrite (remove_find false wfe) by (auto; eapply find_wfn; eauto). cbn [andb]. destruct (same_name n n'); auto.
    rewrite <- (find_same true wfn db (Some t) (Some t')) by auto. now rewrite F.
  - intros t' T'. rewrite (update_find true wfn) by auto. cbn [same_name]. rewrite F. destruct (same t t') eqn:S1; auto.
    rewrite <- (find_same true wfn db (Some t) (Some t')) by auto. now rewrite F.
Qed.
(** a section, added or there *)
Lemma add_changed m db t n db' ok new : wf db -> text t -> text_name n -> add_section m db t n = (db', ok, new) ->
  wf db' /\
  (forall t', text t' -> has (t_find db (Some t')) = true -> has (t_find db' (Some t')) = true) /\
  if ok then
    changed db db' t n (Some (match find_section db t n with Some es => es | None => [] end)) /\
    new = negb (has (find_section db t n)) /\
    (forall t', text t' -> has (t_find db' (Some t')) = same t t' || has (t_find db (Some t')))
  else
    m <> all_mem /\ forall t' n', text t' -> text_name n' -> find_section db' t' n' = find_section db t' n'.
Proof.
  intros W T N E. unfold add_section in E. unfold find_section at 1 2. destruct (t_find db (Some t)) as [ns|] eqn:F.
  - pose proof (find_wfn _ _ _ W F) as Wn. 
    assert (forall t', text t' -> same t t' = true -> t_find db (Some t') = Some ns) as FS.
    { intros t' T' S1. rewrite <- (find_same true wfn db (Some t) (Some t')) by auto. auto. }
    destruct (t_find ns n) as [es|] eqn:G.
    + injection E as <- <- <-. split; auto. split; auto. split; [split; auto|split; auto].
      * intros t' n' T' N'. destruct (same t t') eqn:S1; auto. destruct (same_name n n') eqn:S2; auto. cbn [andb].
        unfold find_section. rewrite FS by auto. rewrite <- (find_same false wfe ns n n') by auto. auto.
      * intros t' T'. destruct (same t t') eqn:S1; auto. now rewrite FS.
    + destruct (ok_name m) eqn:M; injection E as <- <- <-.
      * assert (wfn (t_insert ns n [])) as Wi. { apply insert_ok; auto. destruct n; cbn; auto. exact I. }
        split; [now apply update_ok|]. split; [|split; [split|split; auto]].
        { intros t' T'. rewrite (update_find true wfn) by auto. cbn [same_name]. rewrite F. destruct (same t t'); auto. }
        { now apply update_ok. }
        { intros t' n' T' N'. unfold find_section. rewrite (update_find true wfn) by auto. cbn [same_name]. rewrite F. destruct (same t t') eqn:S1; auto.
          rewrite (insert_find false wfe) by (auto; destruct n; cbn; auto). cbn [andb]. rewrite FS by auto. reflexivity. }
        { intros t' T'. rewrite (update_find true wfn) by auto. cbn [same_name]. rewrite F. now destruct (same t t'). }
      * split; auto. split; auto. split; auto. intros ->. discriminate.
  - destruct (ok_type m) eqn:M1; [|injection E as <- <- <-; split; auto; split; auto; split; auto; intros ->; discriminate].
    assert (wf (t_insert db (Some t) [])) as Wi by (apply insert_ok; auto; exact I).
    assert (forall t', text t' -> t_find (t_insert db (Some t) []) (Some t') = if same t t' then Some [] else t_find db (Some t')) as Fi.
    { intros t' T'. rewrite (insert_find true wfn) by auto. reflexivity. }
    destruct (ok_name m) eqn:M2; injection E as <- <- <-.
    + assert (wfn [(n, [])]) as W1. { cbn. repeat split; auto. destruct n; cbn; auto. }
      split; [now apply update_ok|]. split; [|split; [split|split; auto]].
      * intros t' T' H. rewrite (update_find true wfn) by auto. cbn [same_name]. rewrite !Fi, same_refl by auto. now destruct (same t t').
      * now apply update_ok.
      * intros t' n' T' N'. unfold find_section. rewrite (update_find true wfn) by auto. cbn [same_name]. rewrite !Fi, same_refl by auto.
        destruct (same t t') eqn:S1; auto. cbn [t_find andb].
        rewrite kcmp_same, same_name_sym by auto. destruct (same_name n n'); auto.
        rewrite <- (find_same true wfn db (Some t) (Some t')) by auto. now rewrite F.
      * intros t' T'. rewrite (update_find true wfn) by auto. cbn [same_name]. rewrite !Fi, same_refl by auto. now destruct (same t t').
    + split; auto. split; [|split; [intros ->; discriminate|]].
      * intros t' T' H. rewrite Fi by auto. now destruct (same t t').
      * intros t' n' T' N'. unfold find_section. rewrite Fi by auto. destruct (same t t') eqn:S1; auto.
        rewrite <- (find_same true wfn db (Some t) (Some t')) by auto. now rewrite F.
Qed.

(** * Reading *)
Definition reade (o : option entries) (e : bytes) : option (option (list bytes)) :=
  match o with
  | None => Some None
  | Some es => match t_find es (Some e) with None => Some None | Some v => match strings v with None => None | Some l => Some (Some l) end end
  end.
Lemma reads_eq db t n e : reads db t n e = reade (find_section db t n) e.
Proof. unfold reads, find_entry, reade. destruct (find_section db t n); reflexivity. Qed.
Lemma reade_update es e a ws e' : wfe es -> text e -> text e' -> has (t_find es (Some e)) = true -> reps a ws ->
  reade (Some (t_update es (Some e) a)) e' = if same e e' then Some (Some ws) else reade (Some es) e'.
Proof.
  intros W T T' H R. cbn [reade]. rewrite (update_find true goodv) by auto. cbn [same_name]. destruct (t_find es (Some e)) as [v|]; [|discriminate].
  destruct (same e e'); auto. now rewrite (strings_reps _ _ R).
Qed.
Lemma reade_insert es e a ws e' : wfe es -> text e -> text e' -> t_find es (Some e) = None -> reps a ws ->
  reade (Some (t_insert es (Some e) a)) e' = if same e e' then Some (Some ws) else reade (Some es) e'.
Proof.
  intros W T T' H R. cbn [reade]. rewrite (insert_find true goodv) by auto. cbn [same_name].
  destruct (same e e'); auto. now rewrite (strings_reps _ _ R).
Qed.
Lemma reade_remove es e e' : wfe es -> text e -> text e' ->
  reade (Some (t_remove es (Some e))) e' = if same e e' then Some None else reade (Some es) e'.
Proof.
  intros W T T'. cbn [reade]. rewrite (remove_find true goodv) by auto. cbn [same_name]. now destruct (same e e').
Qed.
Lemma reads_section db a t n e : agrees db a -> text t -> text_name n -> text e ->
  a_val a t n e = match find_section db t n with None => None | Some es => match t_find es (Some e) with None => None | Some v => strings v end end.
Proof.
  intros (_ & _ & A) T N E. specialize (A t n e T N E). rewrite reads_eq in A. unfold reade in A.
  destruct (find_section db t n) as [es|]; [|congruence]. destruct (t_find es (Some e)) as [v|]; [|congruence].
  destruct (strings v); congruence.
Qed.

(** * The operations *)
Lemma same_section db t n t' n' : wf db -> text t -> text_name n -> text t' -> text_name n' -> same t t' = true -> same_name n n' = true ->
  find_section db t n = find_section db t' n'.
Proof.
  intros W T N T' N' S1 S2. unfold find_section. rewrite (find_same true wfn db (Some t) (Some t')) by auto.
  destruct (t_find db (Some t')) as [ns|] eqn:F; auto. apply (find_same false wfe); auto. eapply find_wfn; eauto.
Qed.
Lemma agrees_ext db a a' : agrees db a -> (forall t, text t -> a_type a t = a_type a' t) ->
  (forall t n, text t -> text_name n -> a_sec a t n = a_sec a' t n) ->
  (forall t n e, text t -> text_name n -> text e -> a_val a t n e = a_val a' t n e) -> agrees db a'.
Proof.
  intros (A1 & A2 & A3) H1 H2 H3. split; [|split]; intros.
  - rewrite <- H1 by auto. auto.
  - rewrite <- H2 by auto. auto.
  - rewrite <- H3 by auto. auto.
Qed.
Definition step_ok (m : mem) (o : cop) (a : acfg) (db' : cfgdb) (r : Z) : Prop :=
  wf db' /\ ((a_step a o = (fst (a_step a o), r) /\ agrees db' (fst (a_step a o))) \/
             (m <> all_mem /\ r = -1 /\ exists a', unchanged a a' /\ agrees db' a')).
Lemma agree_sec db a t n : agrees db a -> text t -> text_name n -> has (find_section db t n) = a_sec a t n.
Proof. intros (_ & A & _). apply A. Qed.
Lemma agree_type db a t : agrees db a -> text t -> has (t_find db (Some t)) = a_type a t.
Proof. intros (A & _). apply A. Qed.

Definition abs_types (db : cfgdb) (a : acfg) : acfg :=
  {| a_type := fun t => a_type a t || has (t_find db (Some t)); a_sec := a_sec a; a_val := a_val a |}.
(** nothing changed but types *)
Lemma unchanged_ok m o a db db' : agrees db a -> wf db' -> m <> all_mem ->
  (forall t, text t -> has (t_find db (Some t)) = true -> has (t_find db' (Some t)) = true) ->
  (forall t n, text t -> text_name n -> find_section db' t n = find_section db t n) -> step_ok m o a db' (-1).
Proof.
  intros A W M Ht Hs. split; auto. right. split; auto. split; auto. exists (abs_types db' a).
  split; [split; [|split]|split; [|split]]; cbn [abs_types a_type a_sec a_val]; auto.
  - intros t ->. auto.
  - intros t T. rewrite <- (agree_type _ _ _ A T). fold (has (t_find db' (Some t))). specialize (Ht t T).
    destruct (has (t_find db (Some t))); cbn; auto.
  - intros t n T N. rewrite Hs by auto. apply A; auto.
  - intros t n e T N E. rewrite reads_eq, Hs, <- reads_eq by auto. apply A; auto.
Qed.

Lemma add_ok m t n db a db' ok new : wf db -> agrees db a -> text t -> text_name n -> add_section m db t n = (db', ok, new) ->
  step_ok m (CAddSection t n) a db' (if ok then 0 else -1).
Proof.
  intros W A T N E. destruct (add_changed _ _ _ _ _ _ _ W T N E) as (W' & Ht & H). destruct ok.
  - destruct H as ((_ & C) & _ & Ty). split; auto. left. split; [reflexivity|]. cbn [a_step fst]. split; [|split].
    + intros t' T'. fold (has (t_find db' (Some t'))). rewrite Ty by auto. cbn. now rewrite (agree_type _ _ _ A T').
    + intros t' n' T' N'. rewrite C by auto. cbn. rewrite <- (agree_sec _ _ _ _ A T' N'). now destruct (same t t' && same_name n n').
    + intros t' n' e' T' N' E'. rewrite reads_eq, C by auto. cbn [a_add a_val]. destruct (same t t' && same_name n n') eqn:S0.
      2:{ rewrite <- reads_eq. destruct A as (_ & _ & A). apply A; auto. }
      apply andb_true_iff in S0 as (S1 & S2).
      assert (find_section db t' n' = find_section db t n) as FS.
      { symmetry. now apply same_section. }
      destruct A as (_ & _ & A). specialize (A t' n' e' T' N' E'). rewrite reads_eq, FS in A.
      destruct (find_section db t n) as [es|]; auto.
  - destruct H as (M & C). eapply unchanged_ok; eauto.
Qed.

Lemma put_ok db a t n es0 es e v : wf db -> agrees db a -> text t -> text_name n -> text e -> find_section db t n = Some es0 -> wfe es ->
  (forall e', text e' -> reade (Some es) e' = if same e e' then Some v else reade (Some es0) e') ->
  wf (put_section db t n es) /\ agrees (put_section db t n es) (a_put a t n e v).
Proof.
  intros W A T N E F We H. destruct (put_changed db t n es es0 W T N F We) as ((W' & C) & Ty). split; auto. split; [|split].
  - intros t' T'. fold (has (t_find (put_section db t n es) (Some t'))). rewrite Ty by auto. now apply (agree_type _ a).
  - intros t' n' T' N'. rewrite C by auto. cbn. rewrite <- (agree_sec _ _ _ _ A T' N').
    destruct (same t t' && same_name n n') eqn:S0; auto. apply andb_true_iff in S0 as (S1 & S2).
    assert (find_section db t' n' = find_section db t n) as ->.
    { symmetry. now apply same_section. }
    now rewrite F.
  - intros t' n' e' T' N' E'. rewrite reads_eq, C by auto. cbn [a_put a_val]. destruct (same t t' && same_name n n') eqn:S0.
    2:{ cbn [andb]. rewrite <- reads_eq. destruct A as (_ & _ & A). apply A; auto. }
    apply andb_true_iff in S0 as (S1 & S2). cbn [andb]. rewrite H by auto. destruct (same e e'); auto.
    assert (find_section db t' n' = find_section db t n) as Q.
    { symmetry. now apply same_section. }
    rewrite <- F, <- Q, <- reads_eq. destruct A as (_ & _ & A). apply A; auto.
Qed.

Lemma set_ok m junk db a t n e v append front : wf db -> agrees db a -> text t -> text_name n -> text e -> text v ->
  (append = false -> ok_value m = true) ->
  exists db' ok, set_entry m junk db t n e v append front = Some (db', ok) /\ step_ok m (CSet t n e v append front) a db' (if ok then 0 else -1).
Proof.
  intros W A T N E V NL. unfold set_entry. destruct (add_section m db t n) as [[db1 ok1] new] eqn:AD.
  destruct (add_changed _ _ _ _ _ _ _ W T N AD) as (W1 & Ht & H). destruct ok1; cbn [negb].
  2:{ destruct H as (M & C). do 2 eexists. split; [reflexivity|]. eapply unchanged_ok; eauto. }
  pose proof (add_ok _ _ _ _ _ _ _ _ W A T N AD) as (_ & [(_ & A1)|(_ & X & _)]); [|discriminate]. cbn [a_step fst] in A1.
  destruct H as ((_ & C) & -> & Ty).
  assert (find_section db1 t n = Some (match find_section db t n with Some es => es | None => [] end)) as F1.
  { rewrite C by auto. now rewrite same_refl, same_name_refl. }
  rewrite F1. set (es := match find_section db t n with Some es => es | None => [] end) in *.
  assert (wfe es) as We by (eapply find_wfe; eauto).
  set (fail := if negb (has (find_section db t n)) then drop_section db1 t n else db1).
  assert (m <> all_mem -> step_ok m (CSet t n e v append front) a fail (-1)) as FAIL.
  { intros M. unfold fail. destruct (find_section db t n) as [es1|] eqn:FD; cbn [has negb].
    - eapply (unchanged_ok m _ a db); eauto. intros t' n' T' N'. rewrite C by auto. destruct (same t t' && same_name n n') eqn:S0; auto.
      apply andb_true_iff in S0 as (S1 & S2). transitivity (find_section db t n); [now rewrite FD|now apply same_section].
    - destruct (drop_changed db1 t n es W1 T N F1) as ((W2 & C2) & Ty2). apply (unchanged_ok m _ a db _ A W2 M).
      + intros t' T' Q. rewrite Ty2 by auto. auto.
      + intros t' n' T' N'. rewrite C2, C by auto. destruct (same t t' && same_name n n') eqn:S0; auto.
        apply andb_true_iff in S0 as (S1 & S2). transitivity (find_section db t n); [now rewrite FD|now apply same_section]. }
  assert (a_val a t n e = match t_find es (Some e) with None => None | Some x => strings x end) as AV.
  { rewrite (reads_section db a t n e) by auto. unfold es. destruct (find_section db t n); reflexivity. }
  assert (forall a0 ws, reps a0 ws -> Forall text ws -> exists a', (if front then sa_prepend else sa_append) (ok_value m) junk a0 v = Some (if ok_value m then 0 else -1, a') /\
     reps a' (if ok_value m then if front then v :: ws else ws ++ [v] else ws)) as PR.
  { intros a0 ws R _. destruct front; [apply prepend_reps|apply append_reps]; auto using text_nonul. }
  destruct (t_find es (Some e)) as [a0|] eqn:FE.
  - destruct (find_good _ _ _ We FE) as (ws0 & Wn & Wt & R0). rewrite (strings_reps _ _ R0) in AV.
    set (ws1 := if append then ws0 else []).
    assert (reps (if append then a0 else sa_init) ws1) as R1 by (unfold ws1; destruct append; auto using reps_init).
    assert (Forall text ws1) as Wt1 by (unfold ws1; destruct append; auto).
    destruct (PR _ _ R1 Wt1) as (a' & -> & R'). destruct (ok_value m) eqn:OV.
    + change (0 =? 0) with true. cbn match. do 2 eexists. split; [reflexivity|].
      assert (Forall text (if front then v :: ws1 else ws1 ++ [v])) as Wt'.
      { destruct front; [constructor; auto|apply Forall_app; split; auto]. }
      destruct (put_ok db1 (a_add a t n) t n es (t_update es (Some e) a') e (Some (if front then v :: ws1 else ws1 ++ [v]))) as (W2 & A2); auto.
      * apply update_ok; auto. exists (if front then v :: ws1 else ws1 ++ [v]). split; [destruct front; [discriminate|]; destruct ws1; discriminate|]. split; auto.
      * intros e' E'. apply reade_update; auto. now rewrite FE.
      * split; auto. left. split; [reflexivity|]. cbn [a_step fst]. rewrite AV. exact A2.
    + destruct append; [|pose proof (NL eq_refl); discriminate]. change (-1 =? 0) with false. cbn match. do 2 eexists. split; [reflexivity|].
      (* the entry is kept, its value is the same *)
      assert (m <> all_mem) as M by (intros ->; discriminate).
      assert (has (find_section db t n) = true) as HS.
      { unfold es in FE. destruct (find_section db t n); auto. discriminate FE. }
      unfold fail. rewrite HS. cbn [negb].
      destruct (put_ok db1 (a_add a t n) t n es (t_update es (Some e) a') e (Some ws1)) as (W2 & A2); auto.
      { apply update_ok; auto. exists ws1. auto. }
      { intros e' E'. apply reade_update; auto. now rewrite FE. }
      split; auto. right. split; auto. split; auto.
      exists {| a_type := a_type (a_add a t n); a_sec := a_sec a; a_val := a_val a |}. split.
      { split; [|split]; cbn [a_add a_type a_sec a_val]; auto. intros t' ->. now rewrite orb_true_r. }
      eapply agrees_ext; [exact A2|..]; cbn [a_put a_add a_type a_sec a_val]; auto.
      * intros t' n' T' N'. destruct (same t t' && same_name n n') eqn:S0; auto. apply andb_true_iff in S0 as (S1 & S2).
        rewrite <- (agree_sec _ _ _ _ A T' N'). now rewrite <- (same_section db t n) by auto.
      * intros t' n' e' T' N' E'. destruct (same t t' && same_name n n' && same e e') eqn:S0; auto.
        apply andb_true_iff in S0 as (S0 & S3). apply andb_true_iff in S0 as (S1 & S2).
        rewrite (reads_section db a t' n' e') by auto. rewrite <- (same_section db t n) by auto. unfold es in FE.
        destruct (find_section db t n); [|discriminate]. rewrite <- (find_same true goodv _ (Some e)) by auto. rewrite FE. symmetry. now apply strings_reps.
  - destruct (ok_entry m) eqn:OE; cbn [negb].
    2:{ do 2 eexists. split; [reflexivity|]. apply FAIL. intros ->. discriminate. }
    destruct (PR _ _ reps_init (Forall_nil _)) as (a' & -> & R'). destruct (ok_value m) eqn:OV.
    + change (0 =? 0) with true. cbn match. do 2 eexists. split; [reflexivity|].
      assert ((if front then [v] else [] ++ [v]) = [v]) as EV by now destruct front. rewrite EV in R'.
      destruct (put_ok db1 (a_add a t n) t n es (t_insert es (Some e) a') e (Some [v])) as (W2 & A2); auto.
      * apply insert_ok; auto. exists [v]. split; [discriminate|]. split; auto.
      * intros e' E'. apply reade_insert; auto.
      * split; auto. left. split; [reflexivity|]. cbn [a_step fst]. rewrite AV. destruct append, front; exact A2.
    + change (-1 =? 0) with false. cbn match. do 2 eexists. split; [reflexivity|]. apply FAIL. intros ->. discriminate.
Qed.

Lemma string_at a pre s ws : reps a (pre ++ s :: ws) -> sa_string a (zlen (flat pre)) = Some s.
Proof.
  intros R. pose proof (string_reps a (pre ++ s :: ws) (zlen pre) s R) as Q.
  replace (Z.to_nat (zlen pre)) with (length pre) in Q by (unfold zlen; lia). rewrite firstn_app, Nat.sub_diag, firstn_all, firstn_O, app_nil_r in Q.
  apply Q. apply zget_split. reflexivity.
Qed.
Lemma first_equal_reps a v : forall ws pre, reps a (pre ++ ws) ->
  if existsb (fun x => str_eqb x v) ws then
    exists p s q, ws = p ++ s :: q /\ first_equal a (offs (zlen (flat pre)) ws) v = Some (Some (zlen (flat (pre ++ p)))) /\ remove_first v ws = p ++ q
  else first_equal a (offs (zlen (flat pre)) ws) v = Some None.
Proof.
  induction ws as [|s ws IH]; intros pre R; [reflexivity|]. cbn [existsb offs first_equal remove_first].
  rewrite (string_at _ _ _ _ R). destruct (str_eqb s v) eqn:Q; cbn [orb].
  - exists [], s, ws. now rewrite app_nil_r.
  - specialize (IH (pre ++ [s])). rewrite <- app_assoc in IH. specialize (IH R). rewrite flat_app, zlen_app in IH.
    replace (zlen (flat pre) + zlen s + 1) with (zlen (flat pre) + zlen (flat [s])).
    2:{ rewrite flat_len. change (flat []) with (@nil Z). rewrite (@zlen_nil Z). lia. }
    destruct (existsb _ ws); auto. destruct IH as (p & s0 & q & -> & E & Rm). exists (s :: p), s0, q. rewrite Rm. split; auto.
    split; auto. rewrite E. now rewrite <- app_assoc.
Qed.

Lemma remove_element_ok m junk db a t n e v : wf db -> agrees db a -> text t -> text_name n -> text e -> text v ->
  exists db' r, remove_element m junk db t n e v = Some (db', r) /\ step_ok m (CRemoveElement t n e v) a db' r.
Proof.
  intros W A T N E V. pose proof (reads_section db a t n e A T N E) as AV. unfold remove_element.
  assert (a_val a t n e = None -> step_ok m (CRemoveElement t n e v) a db (-1)) as NONE.
  { intros X. split; auto. left. cbn [a_step]. rewrite X. cbn. auto. }
  destruct (find_section db t n) as [es|] eqn:F; [|eauto]. destruct (t_find es (Some e)) as [x|] eqn:G; [|eauto].
  pose proof (find_wfe _ _ _ _ W F) as We. destruct (find_good _ _ _ We G) as (ws & Wn & Wt & R). rewrite (strings_reps _ _ R) in AV. clear NONE.
  rewrite (get_reps x ws 1 R). destruct ws as [|w ws]; [easy|]. destruct ws as [|w1 ws].
  - change (zget [w] 1) with (@None bytes). cbn match. rewrite (string_at x [] w [] R : sa_string x 0 = Some w).
    assert (str_eqb v w = str_eqb w v) as ->. { apply eq_true_iff_eq. rewrite !str_eqb_eq. split; auto. }
    destruct (str_eqb w v) eqn:Q.
    + do 2 eexists. split; [reflexivity|]. destruct (put_ok db a t n es (t_remove es (Some e)) e None) as (W2 & A2); auto.
      * now apply remove_ok.
      * intros e' E'. now apply reade_remove.
      * split; auto. left. cbn [a_step]. rewrite AV. cbn [values existsb remove_first]. rewrite Q. cbn [orb fst]. auto.
    + do 2 eexists. split; [reflexivity|]. split; auto. left. cbn [a_step]. rewrite AV. cbn [values existsb]. rewrite Q. cbn [orb fst]. auto.
  - change (zget (w :: w1 :: ws) 1) with (Some w1). cbn match. rewrite (offsets_reps _ _ R).
    pose proof (first_equal_reps x v (w :: w1 :: ws) [] R) as FE. change (zlen (flat [])) with 0 in FE.
    destruct (existsb (fun x => str_eqb x v) (w :: w1 :: ws)) eqn:EX.
    + destruct FE as (p & s & q & Ews & -> & Rm). cbn [app].
      assert (reps x (p ++ s :: q)) as Rp by (now rewrite <- Ews).
      pose proof (remove_reps (ok_value m) junk x (p ++ s :: q) (zlen p) s true Rp) as RR.
      specialize (RR (zget_split _ _ _ _ eq_refl)). replace (Z.to_nat (zlen p)) with (length p) in RR by (unfold zlen; lia).
      rewrite firstn_app, Nat.sub_diag, firstn_all, firstn_O, app_nil_r in RR. destruct RR as (x' & -> & R').
      assert (skipn (S (length p)) (p ++ s :: q) = q) as SK.
      { rewrite skipn_app, skipn_all2 by lia. replace (S (length p) - length p)%nat with 1%nat by lia. reflexivity. }
      rewrite SK in R'. do 2 eexists. split; [reflexivity|].
      assert (p ++ q <> []) as PQ. { intros X. apply app_eq_nil in X as (-> & ->). discriminate. }
      destruct (put_ok db a t n es (t_update es (Some e) x') e (Some (p ++ q))) as (W2 & A2); auto.
      * apply update_ok; auto. exists (p ++ q). split; auto. split; auto. rewrite Ews in Wt. apply Forall_app in Wt as (Wp & Wq).
        inversion Wq; subst. apply Forall_app; auto.
      * intros e' E'. apply reade_update; auto. now rewrite G.
      * split; auto. left. cbn [a_step]. rewrite AV. cbn [values]. rewrite EX, Rm. destruct (p ++ q); [easy|]. cbn [fst]. auto.
    + rewrite FE. do 2 eexists. split; [reflexivity|]. split; auto. left. cbn [a_step]. rewrite AV. cbn [values]. rewrite EX. cbn [fst]. auto.
Qed.

Lemma step_okay m junk db a o : wf db -> agrees db a -> op_text o -> no_lost m o ->
  exists db' r, c_step m junk db o = Some (db', r) /\ step_ok m o a db' r.
Proof.
  intros W A O NL. destruct o as [t n|t n e v ap fr|t|t n|t n e|t n e v]; cbn [op_text no_lost] in *.
  - destruct O as (T & N). cbn [c_step]. destruct (add_section m db t n) as [[db' ok] new] eqn:AD. do 2 eexists. split; [reflexivity|].
    eapply add_ok; eauto.
  - destruct O as (T & N & E & V). cbn [c_step].
    destruct (set_ok m junk db a t n e v ap fr) as (db' & ok & -> & S); auto. { intros ->. auto. } eauto.
  - cbn [c_step]. unfold remove_type. pose proof (agree_type _ _ _ A O) as TY. destruct (t_find db (Some t)) as [ns|] eqn:F; cbn [has] in TY.
    + do 2 eexists. split; [reflexivity|]. split; [now apply remove_ok|]. left. cbn [a_step]. rewrite <- TY. cbn [fst]. split; auto.
      split; [|split]; cbn [a_drop_type a_type a_sec a_val].
      * intros t' T'. rewrite (remove_find true wfn) by auto. cbn [same_name]. rewrite <- (agree_type _ _ _ A T'). now destruct (same t t').
      * intros t' n' T' N'. rewrite <- (agree_sec _ _ _ _ A T' N'). unfold find_section. rewrite (remove_find true wfn) by auto. cbn [same_name].
        now destruct (same t t').
      * intros t' n' e' T' N' E'. destruct A as (_ & _ & A). specialize (A t' n' e' T' N' E'). rewrite reads_eq in *. unfold find_section in *.
        rewrite (remove_find true wfn) by auto. cbn [same_name]. now destruct (same t t').
    + do 2 eexists. split; [reflexivity|]. split; auto. left. cbn [a_step]. rewrite <- TY. cbn [fst]. auto.
  - destruct O as (T & N). cbn [c_step]. unfold remove_section. pose proof (agree_sec _ _ _ _ A T N) as SE.
    destruct (find_section db t n) as [es|] eqn:F; cbn [has] in SE.
    + do 2 eexists. split; [reflexivity|]. destruct (drop_changed db t n es W T N F) as ((W' & C) & Ty). split; auto. left.
      cbn [a_step]. rewrite <- SE. cbn [fst]. split; auto. split; [|split]; cbn [a_drop_section a_type a_sec a_val].
      * intros t' T'. fold (has (t_find (drop_section db t n) (Some t'))). rewrite Ty by auto. now apply agree_type.
      * intros t' n' T' N'. rewrite C by auto. rewrite <- (agree_sec _ _ _ _ A T' N'). now destruct (same t t' && same_name n n').
      * intros t' n' e' T' N' E'. rewrite reads_eq, C by auto. destruct (same t t' && same_name n n'); auto. rewrite <- reads_eq.
        destruct A as (_ & _ & A). auto.
    + do 2 eexists. split; [reflexivity|]. split; auto. left. cbn [a_step]. rewrite <- SE. cbn [fst]. auto.
  - destruct O as (T & N & E). cbn [c_step]. unfold remove_entry. pose proof (reads_section db a t n e A T N E) as AV.
    destruct (find_section db t n) as [es|] eqn:F.
    2:{ do 2 eexists. split; [reflexivity|]. split; auto. left. cbn [a_step]. rewrite AV. auto. }
    pose proof (find_wfe _ _ _ _ W F) as We. destruct (t_find es (Some e)) as [x|] eqn:G.
    2:{ do 2 eexists. split; [reflexivity|]. split; auto. left. cbn [a_step]. rewrite AV. auto. }
    destruct (find_good _ _ _ We G) as (ws & _ & _ & R). rewrite (strings_reps _ _ R) in AV.
    do 2 eexists. split; [reflexivity|]. destruct (put_ok db a t n es (t_remove es (Some e)) e None) as (W2 & A2); auto.
    + now apply remove_ok.
    + intros e' E'. now apply reade_remove.
    + split; auto. left. cbn [a_step]. rewrite AV. cbn [fst]. auto.
  - destruct O as (T & N & E & V). cbn [c_step]. now apply remove_element_ok.
Qed.

Lemma run_okay junk ops : forall db a, wf db -> agrees db a -> Forall (fun p => op_text (snd p) /\ no_lost (fst p) (snd p)) ops ->
  exists db' rs a', c_run junk db ops = Some (db', rs) /\ a_run a ops rs a' /\ wf db' /\ agrees db' a'.
Proof.
  induction ops as [|(m, o) ops IH]; intros db a W A F.
  - exists db, [], a. repeat split; auto; try apply A. constructor.
  - inversion F as [|? ? (T & NL) F']; subst. cbn [fst snd] in *. destruct (step_okay m junk db a o W A T NL) as (db1 & r & E & W1 & [(S & A1)|(M & -> & a1 & U & A1)]).
    + destruct (IH db1 _ W1 A1 F') as (db' & rs & a' & E' & R & W' & A'). exists db', (r :: rs), a'. cbn [c_run]. rewrite E, E'.
      split; auto. split; auto. eapply a_done; eauto.
    + destruct (IH db1 _ W1 A1 F') as (db' & rs & a' & E' & R & W' & A'). exists db', (-1 :: rs), a'. cbn [c_run]. rewrite E, E'.
      split; auto. split; auto. eapply a_failed; eauto.
Qed.
Lemma wf_empty : wf [].
Proof. exact I. Qed.
Lemma agrees_empty : agrees [] a_empty.
Proof. repeat split. Qed.

(** * Lookups *)
Lemma lookup_okay schema db a t n e : wf db -> agrees db a -> text t -> text_name n -> text e ->
  match a_lookup a t n e with
  | Some l => exists v, get_value schema db t n e = Some v /\ strings v = Some l
  | None => get_value schema db t n e = match schema with None => None | Some f => f t e end
  end.
Proof.
  intros W A T N E. unfold get_value, a_lookup.
  assert (forall n, text_name n -> match a_val a t n e with Some l => exists v, find_entry db t n e = Some v /\ strings v = Some l | None => find_entry db t n e = None end) as G.
  { intros n' N'. rewrite (reads_section db a t n' e A T N' E). unfold find_entry. destruct (find_section db t n') as [es|] eqn:F; auto.
    destruct (t_find es (Some e)) as [v|] eqn:H; auto. pose proof (find_wfe _ _ _ _ W F) as We. destruct (find_good _ _ _ We H) as (ws & _ & _ & R).
    rewrite (strings_reps _ _ R). eauto using strings_reps. }
  pose proof (G n N) as G1. destruct (a_val a t n e) as [l|] eqn:V.
  - destruct G1 as (v & -> & S). eauto.
  - rewrite G1. destruct n as [n|].
    + pose proof (G None I) as G2. destruct (a_val a t None e) as [l|].
      * destruct G2 as (v & -> & S). eauto.
      * now rewrite G2.
    + rewrite V. reflexivity.
Qed.
