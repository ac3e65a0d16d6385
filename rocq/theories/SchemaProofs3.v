(** Changes (C102). *)
From Verif Require Import Base BitsModel StrBase CompModel StringModel CfgModel CfgSpec CfgTree SchemaModel SchemaSpec SchemaProofs.

Lemma svals_eqb_eq a b : svals_eqb a b = true <-> a = b.
Proof.
  revert b. induction a as [|x a IH]; intros [|y b]; cbn; try (split; [discriminate|discriminate]); [tauto|]. rewrite Bool.andb_true_iff, str_eqb_eq, IH. split; [intros [-> ->]; reflexivity|intros Q; injection Q as -> ->; auto].
Qed.
Lemma sdiff_iff a b : sdiff a b = true <-> a <> b.
Proof.
  destruct a as [a|], b as [b|]; cbn; try (split; [congruence|congruence]). rewrite Bool.negb_true_iff. pose proof (svals_eqb_eq a b) as H. destruct (svals_eqb a b); [split; [discriminate|]; intros N; exfalso; apply N; f_equal; apply H; reflexivity|].
  split; [|reflexivity]. intros _ Q. injection Q as ->. assert (false = true) by (apply H; reflexivity). discriminate.
Qed.

Section Delta.
Variables (sch : schema) (s : ssection) (pre post : sdb).
Hypothesis T : sch_text sch.
Hypothesis S0 : In s sch.
Hypothesis Wp : swf pre.
Hypothesis Wq : swf post.
Notation ty := (s_type s).
Lemma ty_text : text ty.
Proof. apply (T s S0). Qed.
Lemma names_ok db ns : swf db -> t_find db (Some ty) = Some ns -> okt false (okt true (fun vs : svals => vs <> [])) ns.
Proof. intros W E. exact (find_P _ _ _ _ _ W E). Qed.
Lemma names_text db n : swf db -> In n (names_of (t_find db (Some ty))) -> text_name n.
Proof.
  intros W I0. destruct (t_find db (Some ty)) as [ns|] eqn:E; [|easy]. cbn [names_of] in I0. apply in_map_iff in I0. destruct I0 as ([n' es] & <- & I0). destruct (okt_key _ _ _ _ _ (names_ok db ns W E) I0) as [K _]. exact (okkey_text _ _ K).
Qed.
Lemma sec_in db n : swf db -> text_name n -> present (find_sec db ty n) = true <-> exists n', In n' (names_of (t_find db (Some ty))) /\ same_name n n' = true.
Proof.
  intros W Tn. unfold find_sec. destruct (t_find db (Some ty)) as [ns|] eqn:E; [|split; [discriminate|intros (? & [] & _)]]. cbn [names_of]. pose proof (names_ok db ns W E) as O. split.
  - destruct (t_find ns n) as [es|] eqn:F; [|discriminate]. intros _. destruct (okt_find _ _ ns n es O Tn F) as (k & Sk & I0). exists k. split; [apply in_map_iff; exists (k, es); auto|exact Sk].
  - intros (n' & I0 & Sn). apply in_map_iff in I0. destruct I0 as ([k es] & <- & I0). assert (@t_find sentries ns n = Some es) as -> by exact (okt_find_same _ _ ns n k es O Tn I0 Sn). reflexivity.
Qed.
Lemma find_sec_same db n n' : swf db -> text_name n -> text_name n' -> same_name n n' = true -> find_sec db ty n = find_sec db ty n'.
Proof. intros W A B E. unfold find_sec. destruct (t_find db (Some ty)) as [ns|] eqn:F; [|reflexivity]. exact (find_same _ _ ns n n' (names_ok db ns W F) A B E). Qed.
Lemma get_val_same db n n' key : swf db -> text_name n -> text_name n' -> same_name n n' = true -> get_val sch db ty n key = get_val sch db ty n' key.
Proof.
  intros W A B E. unfold get_val, find_ent. rewrite (find_sec_same db n n' W A B E). destruct n, n'; try discriminate; reflexivity.
Qed.
Lemma configured_same db n n' : swf db -> text_name n -> text_name n' -> same_name n n' = true -> configured db s n = configured db s n'.
Proof.
  intros W A B E. unfold configured. rewrite (find_sec_same db n n' W A B E). destruct (s_mode s), n as [n|], n' as [n'|]; try discriminate; try reflexivity. f_equal. f_equal. cbn in E.
  apply Bool.eq_true_iff_eq. rewrite !same_eq. apply same_eq in E. rewrite E. tauto.
Qed.
Lemma view_same db n n' : swf db -> text_name n -> text_name n' -> same_name n n' = true -> view sch db s n = view sch db s n'.
Proof.
  intros W A B E. unfold view. rewrite (configured_same db n n' W A B E). destruct (configured db s n'); [|reflexivity]. f_equal. apply map_ext. intros e. apply get_val_same; auto.
Qed.

Definition default_in (db : sdb) : bool := match s_mode s with NamedDefault => needs_default (t_find db (Some ty)) | _ => false end.
Lemma is_def_same n : text n -> (strcasecmp (s_def s) n =? 0) = same (s_def s) n.
Proof. intros Tn. destruct (T s S0) as (_ & Td & _). exact (kcmp_same (Some (s_def s)) (Some n) Td Tn). Qed.
Definition recall (c : call) : option (list (option svals)) :=
  if c_post c || negb (is_named_mode (s_mode s)) then Some (map (fun v => snd (fst v)) (c_vals c)) else None.
(** what a call says *)
Lemma handled n startup pd c : text_name n -> In c (handle_named sch s pre post n startup pd (default_in post)) ->
  c_name c = n /\ recall c = view sch post s n /\ c_vals c = map (fun e => (get_val sch pre ty n (e_key e), get_val sch post ty n (e_key e), sdiff (get_val sch pre ty n (e_key e)) (get_val sch post ty n (e_key e)))) (s_entries s) /\
  (is_named_mode (s_mode s) = true -> n <> None) /\
  (is_named_mode (s_mode s) = true -> startup = false -> pd = default_in pre -> c_pre c = configured pre s n) /\
  (startup = false -> (is_named_mode (s_mode s) = true /\ c_pre c <> c_post c) \/ existsb snd (c_vals c) = true).
Proof.
  intros Tn. unfold handle_named. destruct (is_named_mode (s_mode s) && negb (present n)) eqn:G; [easy|]. cbv zeta.
  set (is_def := match s_mode s, n with NamedDefault, Some x => strcasecmp (s_def s) x =? 0 | _, _ => false end).
  set (p := if is_def && _ && _ then _ else _). set (q := if is_def && negb (present (find_sec post ty n)) then _ else _). set (vals := map _ (s_entries s)).
  assert (is_named_mode (s_mode s) = true -> n <> None) as NN by (destruct n; [discriminate|]; intros M; rewrite M in G; discriminate).
  assert (q || negb (is_named_mode (s_mode s)) = configured post s n) as Qc.
  { unfold q, configured, default_in, is_def. destruct (s_mode s), n as [n|]; cbn [is_named_mode negb andb orb]; rewrite ?Bool.orb_true_r, ?Bool.orb_false_r; try reflexivity; try (exfalso; apply NN; reflexivity).
    rewrite is_def_same by exact Tn. destruct (present (find_sec post ty (Some n))), (same (s_def s) n), (needs_default (t_find post (Some ty))); reflexivity. }
  assert (is_named_mode (s_mode s) = true -> startup = false -> pd = default_in pre -> p = configured pre s n) as Pc.
  { intros NM -> ->. unfold p, configured, default_in, is_def. destruct (s_mode s), n as [n|]; cbn [is_named_mode negb andb orb] in *; try discriminate; try reflexivity; try (exfalso; apply NN; reflexivity).
    rewrite is_def_same by exact Tn. destruct (present (find_sec pre ty (Some n))), (same (s_def s) n), (needs_default (t_find pre (Some ty))); reflexivity. }
  destruct ((is_named_mode (s_mode s) && negb (Bool.eqb p q) || existsb snd vals) || startup) eqn:C; [|easy]. intros [<-|[]]. unfold recall. cbn [c_name c_pre c_post c_vals]. split; [reflexivity|]. split; [|split; [|split; [exact NN|split; [exact Pc|]]]].
  - rewrite Qc. unfold view. destruct (configured post s n); [|reflexivity]. f_equal. unfold vals. rewrite map_map. reflexivity.
  - reflexivity.
  - intros ->. rewrite Bool.orb_false_r in C. apply Bool.orb_true_iff in C. destruct C as [C|C]; [left|right; exact C]. apply Bool.andb_true_iff in C. destruct C as [C1 C2]. split; [exact C1|]. intros Q. rewrite Q, Bool.eqb_reflx in C2. discriminate.
Qed.
(** what no call says *)
Lemma not_handled n : text_name n -> (is_named_mode (s_mode s) = true -> n <> None) -> handle_named sch s pre post n false (default_in pre) (default_in post) = [] -> view sch pre s n = view sch post s n.
Proof.
  intros Tn NN. unfold handle_named. assert (is_named_mode (s_mode s) && negb (present n) = false) as ->. { destruct (is_named_mode (s_mode s)); [|reflexivity]. destruct n; [reflexivity|]. exfalso. apply NN; reflexivity. }
  cbv zeta. set (is_def := match s_mode s, n with NamedDefault, Some x => strcasecmp (s_def s) x =? 0 | _, _ => false end).
  set (p := if is_def && _ && _ then _ else _). set (q := if is_def && negb (present (find_sec post ty n)) then _ else _). set (vals := map _ (s_entries s)).
  assert (q || negb (is_named_mode (s_mode s)) = configured post s n) as Qc.
  { unfold q, configured, default_in, is_def. destruct (s_mode s), n as [n|]; cbn [is_named_mode negb andb orb]; rewrite ?Bool.orb_true_r, ?Bool.orb_false_r; try reflexivity; try (exfalso; apply NN; reflexivity).
    rewrite is_def_same by exact Tn. destruct (present (find_sec post ty (Some n))), (same (s_def s) n), (needs_default (t_find post (Some ty))); reflexivity. }
  assert (p || negb (is_named_mode (s_mode s)) = configured pre s n) as Pc.
  { unfold p, configured, default_in, is_def. destruct (s_mode s), n as [n|]; cbn [is_named_mode negb andb orb]; rewrite ?Bool.orb_true_r, ?Bool.orb_false_r; try reflexivity; try (exfalso; apply NN; reflexivity).
    rewrite is_def_same by exact Tn. destruct (present (find_sec pre ty (Some n))), (same (s_def s) n), (needs_default (t_find pre (Some ty))); reflexivity. }
  rewrite Bool.orb_false_r. destruct (is_named_mode (s_mode s) && negb (Bool.eqb p q) || existsb snd vals) eqn:C; [discriminate|]. intros _. apply Bool.orb_false_iff in C. destruct C as [C1 C2].
  unfold view. rewrite <- Qc, <- Pc. assert (p || negb (is_named_mode (s_mode s)) = q || negb (is_named_mode (s_mode s))) as ->.
  { destruct (is_named_mode (s_mode s)); [|rewrite !Bool.orb_true_r; reflexivity]. cbn [andb] in C1. apply Bool.negb_false_iff, Bool.eqb_prop in C1. rewrite C1. reflexivity. }
  destruct (q || negb (is_named_mode (s_mode s))); [|reflexivity]. f_equal. apply map_ext_in. intros e I0.
  destruct (sdiff (get_val sch pre ty n (e_key e)) (get_val sch post ty n (e_key e))) eqn:D.
  - exfalso. apply Bool.not_true_iff_false in C2. apply C2. apply existsb_exists. unfold vals. eexists. split; [apply in_map_iff; exists e; split; [reflexivity|exact I0]|]. exact D.
  - destruct (get_val sch pre ty n (e_key e)) as [x|], (get_val sch post ty n (e_key e)) as [y|]; try discriminate; [|reflexivity]. cbn in D. apply Bool.negb_false_iff, svals_eqb_eq in D. rewrite D. reflexivity.
Qed.
Lemma always_handled n pd qd : (is_named_mode (s_mode s) = true -> n <> None) -> exists c, In c (handle_named sch s pre post n true pd qd) /\ c_name c = n.
Proof.
  intros NN. unfold handle_named. assert (is_named_mode (s_mode s) && negb (present n) = false) as ->. { destruct (is_named_mode (s_mode s)); [|reflexivity]. destruct n; [reflexivity|]. exfalso. apply NN; reflexivity. }
  rewrite Bool.orb_true_r. eexists. split; [left; reflexivity|reflexivity].
Qed.
(** the memory of a plugin *)
Lemma told_spec cs : forall m n v, (forall c, In c cs -> same_name (c_name c) n = true -> recall c = v) ->
  (exists c, In c cs /\ same_name (c_name c) n = true) \/ m n = v -> told s m cs n = v.
Proof.
  induction cs as [|c cs IH]; intros m n v R H; cbn [told fold_left].
  - destruct H as [(c & [] & _)|H]. exact H.
  - apply IH; [intros c' I0; apply R; right; exact I0|]. unfold remember. fold (recall c). destruct (same_name (c_name c) n) eqn:E.
    + right. apply R; [left; reflexivity|exact E].
    + destruct H as [(c' & [<-|I0] & Q)|H]; [congruence|left; eauto|right; exact H].
Qed.
Lemma pd_eq startup : (match s_mode s with NamedDefault => negb startup && needs_default (t_find pre (Some ty)) | _ => false end) = negb startup && default_in pre.
Proof. unfold default_in. destruct (s_mode s); rewrite ?Bool.andb_false_r; reflexivity. Qed.
(** every call of a section of the schema *)
Lemma section_call startup c : In c (handle_section sch s pre post startup) ->
  text_name (c_name c) /\ exists pd st, In c (handle_named sch s pre post (c_name c) st pd (default_in post)).
Proof.
  unfold handle_section. cbv zeta. rewrite pd_eq. fold (default_in post). intros I0.
  assert (forall n st pd, text_name n -> In c (handle_named sch s pre post n st pd (default_in post)) -> text_name (c_name c) /\ exists pd st, In c (handle_named sch s pre post (c_name c) st pd (default_in post))) as H.
  { intros n st pd Tn I1. destruct (handled n st pd c Tn I1) as (E & _). rewrite E. eauto. }
  rewrite !in_app_iff in I0. destruct I0 as [I0|[I0|[I0|I0]]].
  - apply in_flat_map in I0. destruct I0 as (n & I1 & I0). exact (H n _ _ (names_text post n Wq I1) I0).
  - apply in_flat_map in I0. destruct I0 as (n & I1 & I0). destruct (match t_find post (Some ty) with None => None | Some ns => t_find ns n end); [easy|]. exact (H n _ _ (names_text pre n Wp I1) I0).
  - destruct (startup && _ && _ && _); [|easy]. exact (H None _ _ Logic.I I0).
  - destruct (negb _); [|easy]. destruct (T s S0) as (_ & Td & _). exact (H (Some (s_def s)) _ _ Td I0).
Qed.
Lemma section_recall startup c n : text_name n -> In c (handle_section sch s pre post startup) -> same_name (c_name c) n = true -> recall c = view sch post s n.
Proof.
  intros Tn I0 E. destruct (section_call startup c I0) as (Tc & pd & st & I1). destruct (handled _ st pd c Tc I1) as (_ & R & _). rewrite R. apply view_same; auto.
Qed.
Lemma relevant_nn n : relevant s n -> is_named_mode (s_mode s) = true -> n <> None.
Proof. intros [_ R] M. destruct (s_mode s); [discriminate| | |]; exact R. Qed.
(** a change without a call is no change *)
Lemma section_quiet n : relevant s n ->
  (s_mode s = NamedDefault -> default_in pre = true -> default_in post = true -> view sch pre s (Some (s_def s)) = view sch post s (Some (s_def s))) ->
  (forall c, In c (handle_section sch s pre post false) -> same_name (c_name c) n = false) -> view sch pre s n = view sch post s n.
Proof.
  intros R HD Q. pose proof R as [Tn _]. pose proof (relevant_nn n R) as NN.
  assert (forall n', text_name n' -> same_name n n' = true -> (forall c, In c (handle_named sch s pre post n' false (default_in pre) (default_in post)) -> In c (handle_section sch s pre post false)) -> view sch pre s n = view sch post s n) as H.
  { intros n' T' E I0. rewrite (view_same pre n n'), (view_same post n n') by auto. apply not_handled; [exact T'|intros M; pose proof (NN M); destruct n, n'; try discriminate; congruence|].
    destruct (handle_named sch s pre post n' false (default_in pre) (default_in post)) as [|c l] eqn:F; [reflexivity|]. exfalso. assert (In c (c :: l)) as I1 by (left; reflexivity). specialize (I0 c I1). rewrite <- F in I1.
    destruct (handled n' false (default_in pre) c T' I1) as (E1 & _). specialize (Q c I0). rewrite E1, same_name_sym in Q. congruence. }
  unfold handle_section in *. cbv zeta in *. pose proof (pd_eq false) as PD. rewrite PD in *. fold (default_in post) in *. cbn [negb andb] in *.
  destruct (present (find_sec post ty n)) eqn:Fq.
  - apply (sec_in post n Wq Tn) in Fq. destruct Fq as (n' & I0 & E). apply (H n' (names_text post n' Wq I0) E). intros c Ic. apply in_or_app. left. apply in_flat_map. exists n'. auto.
  - destruct (present (find_sec pre ty n)) eqn:Fp.
    + apply (sec_in pre n Wp Tn) in Fp. destruct Fp as (n' & I0 & E). pose proof (names_text pre n' Wp I0) as T'. apply (H n' T' E). intros c Ic. apply in_or_app. right. apply in_or_app. left. apply in_flat_map. exists n'. split; [exact I0|].
      rewrite (find_sec_same post n n' Wq Tn T' E) in Fq. unfold find_sec in Fq. destruct (match t_find post (Some ty) with None => None | Some ns => t_find ns n' end); [discriminate|exact Ic].
    + unfold relevant in R. destruct (s_mode s) eqn:M.
      * destruct R as [_ ->]. unfold view, configured. rewrite M. f_equal. apply map_ext. intros e. unfold get_val, find_ent. destruct (find_sec pre ty None); [discriminate|]. destruct (find_sec post ty None); [discriminate|]. reflexivity.
      * unfold view, configured. rewrite M. destruct n; rewrite ?Fp, ?Fq; reflexivity.
      * unfold view, configured. rewrite M. destruct n; rewrite ?Fp, ?Fq; reflexivity.
      * destruct n as [n|]; [|exfalso; apply NN; reflexivity]. destruct (same (s_def s) n) eqn:Sd.
        -- destruct (T s S0) as (_ & Td & _). rewrite <- (view_same pre (Some (s_def s)) (Some n)), <- (view_same post (Some (s_def s)) (Some n)) by (cbn; auto).
           destruct (Bool.eqb (default_in pre) (default_in post)) eqn:B.
           ++ apply Bool.eqb_prop in B. destruct (default_in pre) eqn:Dp; [apply HD; auto|]. unfold view, configured. rewrite M.
              rewrite (find_sec_same pre (Some (s_def s)) (Some n)), (find_sec_same post (Some (s_def s)) (Some n)), Fp, Fq by (cbn; auto). unfold default_in in Dp, B. rewrite M in Dp, B. rewrite Dp, <- B. reflexivity.
           ++ exfalso. destruct (always_handled (Some (s_def s)) (default_in pre) (default_in post) ltac:(discriminate)) as (c & Ic & Ec).
              specialize (Q c). rewrite Ec in Q. cbn [same_name] in Q. rewrite Sd in Q. assert (true = false); [|discriminate]. apply Q. apply in_or_app. right. apply in_or_app. right. apply in_or_app. right. cbn [negb]. exact Ic.
        -- unfold view, configured. rewrite M, Fp, Fq, Sd, !Bool.andb_false_r. reflexivity.
Qed.
Lemma follows m : (forall n, relevant s n -> m n = view sch pre s n) ->
  (s_mode s = NamedDefault -> default_in pre = true -> default_in post = true -> view sch pre s (Some (s_def s)) = view sch post s (Some (s_def s))) ->
  forall n, relevant s n -> told s m (handle_section sch s pre post false) n = view sch post s n.
Proof.
  intros M HD n R. pose proof R as [Tn _]. apply told_spec.
  - intros c I0 E. exact (section_recall false c n Tn I0 E).
  - destruct (existsb (fun c => same_name (c_name c) n) (handle_section sch s pre post false)) eqn:X.
    + left. apply existsb_exists in X. exact X.
    + right. rewrite (M n R). apply section_quiet; auto. intros c I0. destruct (same_name (c_name c) n) eqn:E; [|reflexivity]. exfalso. apply Bool.not_true_iff_false in X. apply X. apply existsb_exists. eauto.
Qed.

(** calls tell true and new things, once *)
Lemma section_truth c : s_mode s <> NamedDefault -> In c (handle_section sch s pre post false) ->
  c_vals c = map (fun e => (get_val sch pre ty (c_name c) (e_key e), get_val sch post ty (c_name c) (e_key e), sdiff (get_val sch pre ty (c_name c) (e_key e)) (get_val sch post ty (c_name c) (e_key e)))) (s_entries s) /\
  (is_named_mode (s_mode s) = true -> c_name c <> None /\ c_pre c = configured pre s (c_name c) /\ c_post c = configured post s (c_name c)) /\
  (relevant s (c_name c) -> view sch pre s (c_name c) <> view sch post s (c_name c)).
Proof.
  intros ND I0. assert (exists n, text_name n /\ In c (handle_named sch s pre post n false (default_in pre) (default_in post))) as (n & Tn & I1).
  { unfold handle_section in I0. cbv zeta in I0. rewrite pd_eq in I0. fold (default_in post) in I0. cbn [negb andb] in I0. rewrite !in_app_iff in I0. destruct I0 as [I0|[I0|[I0|I0]]].
    - apply in_flat_map in I0. destruct I0 as (n & I1 & I0). exists n. split; [exact (names_text post n Wq I1)|exact I0].
    - apply in_flat_map in I0. destruct I0 as (n & I1 & I0). destruct (match t_find post (Some ty) with None => None | Some ns => t_find ns n end); [easy|]. exists n. split; [exact (names_text pre n Wp I1)|exact I0].
    - destruct I0.
    - unfold default_in in I0. destruct (s_mode s); try destruct I0. congruence. }
  destruct (handled n false (default_in pre) c Tn I1) as (En & Rc & Vc & Nc & Pc & Cc). rewrite En. split; [exact Vc|].
  assert (is_named_mode (s_mode s) = true -> c_post c = configured post s n) as Qc.
  { intros M. unfold recall, view in Rc. rewrite M, Bool.orb_false_r in Rc. destruct (c_post c), (configured post s n); try discriminate; reflexivity. }
  split; [intros M; split; [apply Nc, M|]; split; [apply Pc; auto|apply Qc, M]|]. intros R Eq. destruct (Cc eq_refl) as [[M D]|D].
  - apply D. rewrite Pc, Qc by auto. unfold view in Eq. destruct (configured pre s n), (configured post s n); try discriminate; reflexivity.
  - apply existsb_exists in D. destruct D as ([[a b] d] & I2 & D). cbn in D. subst d. rewrite Vc in I2. apply in_map_iff in I2. destruct I2 as (e & X & Ie). injection X as <- <- X. apply sdiff_iff in X.
    destruct (configured pre s n) eqn:Cp.
    + unfold view in Eq. rewrite Cp in Eq. destruct (configured post s n); [|discriminate]. injection Eq as Eq. apply X. clear - Eq Ie. induction (s_entries s) as [|e0 l IH]; [easy|]. cbn in Eq. injection Eq as E1 E2. destruct Ie as [<-|Ie]; auto.
    + assert (configured post s n = false) as Cq by (unfold view in Eq; rewrite Cp in Eq; destruct (configured post s n); [discriminate|reflexivity]).
      pose proof (relevant_nn n R) as NN. assert (find_sec pre ty n = None /\ find_sec post ty n = None) as [F1 F2].
      { unfold configured in Cp, Cq. destruct (s_mode s); try discriminate; try congruence; (destruct n as [n|]; [|exfalso; apply NN; reflexivity]); destruct (find_sec pre ty (Some n)), (find_sec post ty (Some n)); try discriminate; auto. }
      (* the section is in neither database, but it was handled: its name is in one of them *)
      exfalso. unfold handle_section in I0. cbv zeta in I0. rewrite pd_eq in I0. fold (default_in post) in I0. cbn [negb andb] in I0. rewrite !in_app_iff in I0.
      assert (forall db n', swf db -> In n' (names_of (t_find db (Some ty))) -> present (find_sec db ty n') = true) as IN.
      { intros db n' W' I3. apply (sec_in db n' W' (names_text db n' W' I3)). exists n'. split; [exact I3|apply same_name_refl]. }
      destruct I0 as [I0|[I0|[I0|I0]]].
      * apply in_flat_map in I0. destruct I0 as (n' & I3 & I0). destruct (handled n' _ _ c (names_text post n' Wq I3) I0) as (E2 & _). rewrite En in E2. subst n'. specialize (IN post n Wq I3). rewrite F2 in IN. discriminate.
      * apply in_flat_map in I0. destruct I0 as (n' & I3 & I0). destruct (match t_find post (Some ty) with None => None | Some ns => t_find ns n' end); [easy|]. destruct (handled n' _ _ c (names_text pre n' Wp I3) I0) as (E2 & _). rewrite En in E2. subst n'. specialize (IN pre n Wp I3). rewrite F1 in IN. discriminate.
      * destruct I0.
      * unfold default_in in I0. destruct (s_mode s); try destruct I0. congruence.
Qed.
Definition distinct (l : list (option bytes)) : Prop := ForallOrdPairs (fun a b => same_name a b = false) l.
Lemma distinct_app l1 l2 : distinct l1 -> distinct l2 -> (forall a b, In a l1 -> In b l2 -> same_name a b = false) -> distinct (l1 ++ l2).
Proof.
  induction 1 as [|a l1 F P IH]; intros D2 X; [exact D2|]. cbn. constructor.
  - apply Forall_forall. intros b I0. apply in_app_or in I0. destruct I0 as [I0|I0]; [rewrite Forall_forall in F; exact (F b I0)|apply X; [left; reflexivity|exact I0]].
  - apply IH; [exact D2|]. intros a' b A B. apply X; [right; exact A|exact B].
Qed.
Lemma distinct_flat (f : option bytes -> list call) l : distinct l -> (forall n c, In n l -> In c (f n) -> c_name c = n) -> (forall n, (length (f n) <= 1)%nat) -> distinct (map c_name (flat_map f l)).
Proof.
  induction 1 as [|n l F D IH]; intros N L; [constructor|]. cbn [flat_map]. rewrite map_app. apply distinct_app.
  - specialize (L n). destruct (f n) as [|c [|c2 r]]; [constructor|constructor; constructor|cbn in L; lia].
  - apply IH; [|exact L]. intros n' c A B. apply N; [right; exact A|exact B].
  - intros a b A B. apply in_map_iff in A, B. destruct A as (c1 & <- & A). destruct B as (c2 & <- & B). apply in_flat_map in B. destruct B as (n' & I1 & B). rewrite (N n c1 (or_introl eq_refl) A), (N n' c2 (or_intror I1) B). rewrite Forall_forall in F. exact (F n' I1).
Qed.
Lemma distinct_names db : swf db -> distinct (names_of (t_find db (Some ty))).
Proof.
  intros W. destruct (t_find db (Some ty)) as [ns|] eqn:E; [|constructor]. cbn [names_of]. pose proof (names_ok db ns W E) as O. clear E. induction ns as [|[n es] ns IH]; [constructor|]. cbn [map fst]. cbn [okt] in O. destruct O as (K & _ & F & O). constructor; [|apply IH, O].
  apply Forall_forall. intros n' I0. apply in_map_iff in I0. destruct I0 as ([k es2] & <- & I0). cbn [fst]. rewrite Forall_forall in F. specialize (F _ I0). cbn [fst] in F. destruct (okt_key _ _ _ _ _ O I0) as [K2 _]. rewrite <- kcmp_same by (eapply okkey_text; eauto). destruct (Z.eqb_spec (kcmp n k) 0); [lia|reflexivity].
Qed.
Lemma handle_len n st pd qd : (length (handle_named sch s pre post n st pd qd) <= 1)%nat.
Proof. unfold handle_named. destruct (_ && negb (present n)); [cbn; lia|]. cbv zeta. match goal with |- context [if ?b then [_] else []] => destruct b end; cbn; lia. Qed.
Lemma handle_name n st pd qd c : In c (handle_named sch s pre post n st pd qd) -> c_name c = n.
Proof. unfold handle_named. destruct (_ && negb (present n)); [easy|]. cbv zeta. match goal with |- context [if ?b then [_] else []] => destruct b end; [|easy]. intros [<-|[]]. reflexivity. Qed.
Lemma section_once : s_mode s <> NamedDefault -> distinct (map c_name (handle_section sch s pre post false)).
Proof.
  intros ND. unfold handle_section. cbv zeta. rewrite pd_eq. fold (default_in post). cbn [negb andb].
  assert (default_in pre = false /\ default_in post = false) as [-> ->] by (unfold default_in; destruct (s_mode s); auto; congruence). cbn [Bool.eqb negb app]. rewrite app_nil_r, map_app. apply distinct_app.
  - apply distinct_flat; [apply distinct_names, Wq| |intros n; apply handle_len]. intros n c _. apply handle_name.
  - apply distinct_flat; [apply distinct_names, Wp| |].
    + intros n c _ I0. destruct (match t_find post (Some ty) with None => None | Some ns => t_find ns n end); [easy|]. exact (handle_name _ _ _ _ _ I0).
    + intros n. destruct (match t_find post (Some ty) with None => None | Some ns => t_find ns n end); [cbn; lia|apply handle_len].
  - intros a b A B. apply in_map_iff in A, B. destruct A as (c1 & <- & A). destruct B as (c2 & <- & B). apply in_flat_map in A, B. destruct A as (n1 & I1 & A). destruct B as (n2 & I2 & B). rewrite (handle_name _ _ _ _ _ A).
    pose proof (names_text post n1 Wq I1) as T1. pose proof (names_text pre n2 Wp I2) as T2.
    destruct (match t_find post (Some ty) with None => None | Some ns => t_find ns n2 end) eqn:F2; [easy|]. rewrite (handle_name _ _ _ _ _ B). destruct (same_name n1 n2) eqn:E; [|reflexivity]. exfalso.
    assert (present (find_sec post ty n2) = true) as P. { apply (sec_in post n2 Wq T2). exists n1. rewrite same_name_sym. auto. } unfold find_sec in P. pose proof (eq_trans (eq_sym (f_equal present F2)) P). discriminate.
Qed.
End Delta.

(** startup *)
Lemma startup_follows sch s post m : sch_text sch -> In s sch -> swf post -> (is_named_mode (s_mode s) = true -> forall n, relevant s n -> m n = None) ->
  (s_mode s = Unnamed -> t_find post (Some (s_type s)) <> None -> find_sec post (s_type s) None <> None) ->
  forall n, relevant s n -> told s m (handle_section sch s [] post true) n = view sch post s n.
Proof.
  intros T S0 W M U n R. assert (swf []) as W0 by exact Logic.I. pose proof R as [Tn _]. apply told_spec.
  - intros c I0 E. exact (section_recall sch s [] post T S0 W0 W true c n Tn I0 E).
  - pose proof (relevant_nn s n R) as NN. unfold handle_section. cbv zeta. destruct (present (find_sec post (s_type s) n)) eqn:Fq.
    + left. apply (sec_in s post n W Tn) in Fq. destruct Fq as (n' & I0 & E). destruct (always_handled sch s [] post n' (match s_mode s with NamedDefault => negb true && needs_default (t_find [] (Some (s_type s))) | _ => false end) (match s_mode s with NamedDefault => needs_default (t_find post (Some (s_type s))) | _ => false end)) as (c & Ic & Ec).
      { intros Q. specialize (NN Q). destruct n, n'; try discriminate; congruence. }
      exists c. split; [apply in_or_app; left; apply in_flat_map; eauto|]. rewrite Ec, same_name_sym. exact E.
    + pose proof R as R0. unfold relevant in R. destruct (s_mode s) eqn:MO.
      * destruct R as [_ ->]. left. destruct (t_find post (Some (s_type s))) as [ns|] eqn:E.
        -- exfalso. apply (U eq_refl); [discriminate|]. unfold find_sec in *. destruct (t_find post (Some (s_type s))) as [ns'|]; [|reflexivity]. destruct (t_find ns' None); [discriminate|reflexivity].
        -- destruct (always_handled sch s [] post None false false) as (c & Ic & Ec); [rewrite MO; discriminate|]. exists c. split; [|rewrite Ec; reflexivity]. cbn. rewrite app_nil_r. exact Ic.
      * right. rewrite (M eq_refl n R0). unfold view, configured. rewrite MO. destruct n; rewrite ?Fq; reflexivity.
      * right. rewrite (M eq_refl n R0). unfold view, configured. rewrite MO. destruct n; rewrite ?Fq; reflexivity.
      * destruct n as [n|]; [|exfalso; apply NN; reflexivity]. destruct (needs_default (t_find post (Some (s_type s)))) eqn:D.
        -- destruct (same (s_def s) n) eqn:Sd.
           ++ left. destruct (always_handled sch s [] post (Some (s_def s)) false true) as (c & Ic & Ec); [discriminate|]. exists c. rewrite Ec. split; [|exact Sd]. apply in_or_app. right. apply in_or_app. right. apply in_or_app. right. cbn. exact Ic.
           ++ right. rewrite (M eq_refl (Some n) R0). unfold view, configured. rewrite MO, Fq, Sd, Bool.andb_false_r. reflexivity.
        -- right. rewrite (M eq_refl (Some n) R0). unfold view, configured. rewrite MO, Fq, D. reflexivity.
Qed.
