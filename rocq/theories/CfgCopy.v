(** Copies of (parts of) configuration databases. *)
From Verif Require Import Base BitsModel StrBase BufLemmas StringModel StringSpec StringArrProofs CfgModel CfgSpec CfgTree CfgProofs.

Definition merge (old new : option (list bytes)) : option (list bytes) :=
  match new with None => old | Some l => Some (values old ++ l) end.
Definition content (o : option strarray) : option (list bytes) := match o with None => None | Some v => strings v end.
Definition entry_of (o : option entries) (e : bytes) : option (list bytes) := match o with None => None | Some es => content (t_find es (Some e)) end.

Lemma wanted_chosen f n : text_name f -> text_name n -> wanted f n = chosen f n.
Proof. destruct f as [f|]; auto. intros F N. cbn [wanted chosen]. now rewrite kcmp_same. Qed.
Lemma chosen_same f n n' : same_name n n' = true -> chosen f n = chosen f n'.
Proof. destruct f as [f|]; auto. intros E. cbn [chosen]. symmetry. now apply same_name_trans. Qed.
Lemma val_same db a t n e t' n' e' : wf db -> agrees db a -> text t -> text_name n -> text e -> text t' -> text_name n' -> text e' ->
  same t t' = true -> same_name n n' = true -> same e e' = true -> a_val a t n e = a_val a t' n' e'.
Proof.
  intros W A T N E T' N' E' S1 S2 S3. rewrite !(reads_section db a) by auto. rewrite (same_section db t n t' n') by auto.
  destruct (find_section db t' n') as [es|] eqn:F; auto. pose proof (find_wfe _ _ _ _ W F).
  rewrite (find_same true goodv es (Some e) (Some e')) by auto. reflexivity.
Qed.
Lemma sec_same db a t n t' n' : wf db -> agrees db a -> text t -> text_name n -> text t' -> text_name n' ->
  same t t' = true -> same_name n n' = true -> a_sec a t n = a_sec a t' n'.
Proof.
  intros W A T N T' N' S1 S2. rewrite <- !(agree_sec db a) by auto. now rewrite (same_section db t n t' n') by auto.
Qed.

Section C.
Variable junk : nat -> Z.

Lemma append_values_ok t n e : text t -> text_name n -> text e -> forall vs dst a, wf dst -> agrees dst a -> a_sec a t n = true -> Forall text vs ->
  exists dst' a', append_values junk dst t n e vs = Some dst' /\ wf dst' /\ agrees dst' a' /\
    (forall t' n', text t' -> text_name n' -> a_sec a' t' n' = a_sec a t' n') /\
    (forall t' n' e', text t' -> text_name n' -> text e' ->
      a_val a' t' n' e' = if same t t' && same_name n n' && same e e' then merge (a_val a t' n' e') (match vs with [] => None | _ => Some vs end) else a_val a t' n' e').
Proof.
  intros T N E. induction vs as [|v vs IH]; intros dst a W A SEC F.
  - exists dst, a. split; auto. split; auto. split; auto. split; auto. intros t' n' e' _ _ _. now destruct (_ && _).
  - inversion F as [|? ? V F']; subst. cbn [append_values].
    destruct (set_ok all_mem junk dst a t n e v true false) as (d1 & ok & -> & W1 & [(R & A1)|(M & _)]); auto; [|now destruct M].
    cbn [a_step fst] in R, A1. injection R as R. destruct ok; [|discriminate].
    set (a1 := a_put _ _ _ _ _) in A1.
    assert (a_sec a1 t n = true) as SEC1. { cbn. rewrite same_refl, same_name_refl. reflexivity. }
    destruct (IH d1 a1 W1 A1 SEC1 F') as (d' & a' & -> & W' & A' & S' & V'). exists d', a'. split; auto. split; auto. split; auto. split.
    + intros t' n' T' N'. rewrite S' by auto. cbn. destruct (same t t' && same_name n n') eqn:Q; auto. apply andb_true_iff in Q as (S1 & S2).
      cbn [orb]. symmetry. rewrite <- SEC. symmetry. now apply (sec_same dst).
    + intros t' n' e' T' N' E'. rewrite V' by auto. unfold a1. cbn [a_put a_val a_add]. destruct (same t t' && same_name n n' && same e e') eqn:Q; auto.
      apply andb_true_iff in Q as (Q & S3). apply andb_true_iff in Q as (S1 & S2). rewrite (val_same dst a t n e t' n' e') by auto.
      destruct vs as [|v1 vs]; cbn [merge values]; [reflexivity|]. now rewrite <- app_assoc.
Qed.

Lemma append_entries_ok t n fe : text t -> text_name n -> text_name fe -> forall es dst a, wfe es -> wf dst -> agrees dst a -> a_sec a t n = true ->
  exists dst' a', append_entries junk dst t n fe es = Some dst' /\ wf dst' /\ agrees dst' a' /\
    (forall t' n', text t' -> text_name n' -> a_sec a' t' n' = a_sec a t' n') /\
    (forall t' n' e', text t' -> text_name n' -> text e' ->
      a_val a' t' n' e' = if same t t' && same_name n n' && chosen fe (Some e') then merge (a_val a t' n' e') (content (t_find es (Some e'))) else a_val a t' n' e').
Proof.
  intros T N FE. induction es as [|([e|], x) es IH]; intros dst a We W A SEC.
  - exists dst, a. split; auto. split; auto. split; auto. split; auto. intros t' n' e' _ _ _. now destruct (_ && _).
  - cbn [wfe okt] in We. destruct We as (E & X & LT & We). cbn [okkey] in E. cbn [append_entries].
    assert (forall e', text e' -> same e e' = true -> t_find es (Some e') = None) as UN.
    { intros e' E' S. rewrite <- (find_same true goodv es (Some e) (Some e')) by auto. apply (find_none_head true goodv); auto. }
    rewrite wanted_chosen by auto. destruct (chosen fe (Some e)) eqn:CH.
    + destruct (goodv_ws _ X) as (ws & Sx & Wn & Wt & _). rewrite Sx.
      destruct (append_values_ok t n e T N E ws dst a W A SEC Wt) as (d1 & a1 & -> & W1 & A1 & S1 & V1).
      assert (a_sec a1 t n = true) as SEC1 by (now rewrite S1).
      destruct (IH d1 a1 We W1 A1 SEC1) as (d' & a' & -> & W' & A' & S' & V'). exists d', a'. split; auto. split; auto. split; auto. split.
      * intros. now rewrite S', S1.
      * intros t' n' e' T' N' E'. rewrite V', V1 by auto. cbn [t_find]. rewrite kcmp_same by auto. cbn [same_name]. rewrite (same_sym e' e).
        destruct (same t t' && same_name n n'); auto. cbn [andb]. destruct (same e e') eqn:Q.
        -- rewrite <- (chosen_same fe (Some e) (Some e')) by auto. rewrite CH. rewrite UN by auto. cbn [content merge]. rewrite Sx. destruct ws; [easy|]. reflexivity.
        -- reflexivity.
    + destruct (IH dst a We W A SEC) as (d' & a' & -> & W' & A' & S' & V'). exists d', a'. split; auto. split; auto. split; auto. split; auto.
      intros t' n' e' T' N' E'. rewrite V' by auto. cbn [t_find]. rewrite kcmp_same by auto. cbn [same_name]. rewrite (same_sym e' e).
      destruct (same e e') eqn:Q; auto. rewrite <- (chosen_same fe (Some e) (Some e')) by auto. rewrite CH. now rewrite andb_false_r.
  - cbn in We. destruct We as (K & _). discriminate.
Qed.

Lemma append_names_ok t fn fe : text t -> text_name fn -> text_name fe -> forall ns dst a, wfn ns -> wf dst -> agrees dst a ->
  exists dst' a', append_names junk dst t fn fe ns = Some dst' /\ wf dst' /\ agrees dst' a' /\
    (forall t' n', text t' -> text_name n' -> a_sec a' t' n' = a_sec a t' n' || (same t t' && chosen fn n' && has (t_find ns n'))) /\
    (forall t' n' e', text t' -> text_name n' -> text e' ->
      a_val a' t' n' e' = if same t t' && chosen fn n' && chosen fe (Some e') then merge (a_val a t' n' e') (entry_of (t_find ns n') e') else a_val a t' n' e').
Proof.
  intros T FN FE. induction ns as [|(n, es) ns IH]; intros dst a Wn W A.
  - exists dst, a. split; auto. split; auto. split; auto. split; intros; cbn.
    + now rewrite andb_false_r, orb_false_r.
    + now destruct (_ && _).
  - cbn [wfn okt] in Wn. destruct Wn as (N & We & LT & Wn). assert (text_name n) as TN by (destruct n; cbn in *; auto). cbn [append_names].
    assert (forall n', text_name n' -> same_name n n' = true -> t_find ns n' = None) as UN.
    { intros n' N' S. rewrite <- (find_same false wfe ns n n') by auto. apply (find_none_head false wfe); auto. }
    rewrite wanted_chosen by auto. destruct (chosen fn n) eqn:CH.
    + destruct (add_section all_mem dst t n) as [[d1 ok] new] eqn:AD.
      destruct (add_ok _ _ _ _ _ _ _ _ W A T TN AD) as (W1 & [(R & A1)|(M & _)]); [|now destruct M].
      cbn [a_step fst] in R, A1. injection R as R. destruct ok; [|discriminate].
      assert (a_sec (a_add a t n) t n = true) as SEC1. { cbn. rewrite same_refl, same_name_refl. reflexivity. }
      destruct (append_entries_ok t n fe T TN FE es d1 _ We W1 A1 SEC1) as (d2 & a2 & -> & W2 & A2 & S2 & V2).
      destruct (IH d2 a2 Wn W2 A2) as (d' & a' & -> & W' & A' & S' & V'). exists d', a'. split; auto. split; auto. split; auto. split.
      * intros t' n' T' N'. rewrite S', S2 by auto. cbn [a_add a_sec t_find]. rewrite kcmp_same by auto. rewrite (same_name_sym n' n).
        destruct (same t t'); cbn [andb orb]; auto. destruct (same_name n n') eqn:Q; auto.
        rewrite <- (chosen_same fn n n') by auto. rewrite CH. cbn. now rewrite orb_true_r.
      * intros t' n' e' T' N' E'. rewrite V', V2 by auto. cbn [a_add a_val t_find]. rewrite kcmp_same by auto. rewrite (same_name_sym n' n).
        destruct (same t t'); auto. cbn [andb]. destruct (same_name n n') eqn:Q; auto.
        rewrite <- (chosen_same fn n n') by auto. rewrite CH, UN by auto. cbn [andb entry_of merge]. now destruct (chosen fe (Some e')).
    + destruct (IH dst a Wn W A) as (d' & a' & -> & W' & A' & S' & V'). exists d', a'. split; auto. split; auto. split; auto. split.
      * intros t' n' T' N'. rewrite S' by auto. cbn [t_find]. rewrite kcmp_same by auto. rewrite (same_name_sym n' n).
        destruct (same_name n n') eqn:Q; auto. rewrite <- (chosen_same fn n n') by auto. rewrite CH. now rewrite andb_false_r.
      * intros t' n' e' T' N' E'. rewrite V' by auto. cbn [t_find]. rewrite kcmp_same by auto. rewrite (same_name_sym n' n).
        destruct (same_name n n') eqn:Q; auto. rewrite <- (chosen_same fn n n') by auto. rewrite CH. now rewrite andb_false_r.
Qed.

Lemma append_db_ok ft fn fe : text_name ft -> text_name fn -> text_name fe -> forall src dst a, wf src -> wf dst -> agrees dst a ->
  exists dst' a', append_db junk dst ft fn fe src = Some dst' /\ wf dst' /\ agrees dst' a' /\
    (forall t' n', text t' -> text_name n' -> a_sec a' t' n' = a_sec a t' n' || (chosen ft (Some t') && chosen fn n' && has (find_section src t' n'))) /\
    (forall t' n' e', text t' -> text_name n' -> text e' ->
      a_val a' t' n' e' = if chosen ft (Some t') && chosen fn n' && chosen fe (Some e') then merge (a_val a t' n' e') (entry_of (find_section src t' n') e') else a_val a t' n' e').
Proof.
  intros FT FN FE. induction src as [|([t|], ns) src IH]; intros dst a Ws W A.
  - exists dst, a. split; auto. split; auto. split; auto. split; intros; cbn.
    + now rewrite andb_false_r, orb_false_r.
    + now destruct (_ && _).
  - cbn [wf okt] in Ws. destruct Ws as (T & Wn & LT & Ws). cbn [okkey] in T. cbn [append_db].
    assert (forall t', text t' -> same t t' = true -> t_find src (Some t') = None) as UN.
    { intros t' T' S. rewrite <- (find_same true wfn src (Some t) (Some t')) by auto. apply (find_none_head true wfn); auto. }
    rewrite wanted_chosen by auto. destruct (chosen ft (Some t)) eqn:CH.
    + destruct (append_names_ok t fn fe T FN FE ns dst a Wn W A) as (d1 & a1 & -> & W1 & A1 & S1 & V1).
      destruct (IH d1 a1 Ws W1 A1) as (d' & a' & -> & W' & A' & S' & V'). exists d', a'. split; auto. split; auto. split; auto.
      unfold find_section. cbn [t_find]. split.
      * intros t' n' T' N'. rewrite S', S1 by auto. unfold find_section. rewrite kcmp_same by auto. cbn [same_name]. rewrite (same_sym t' t).
        destruct (same t t') eqn:Q; cbn [andb]; [|now rewrite orb_false_r]. rewrite UN by auto. cbn [has].
        rewrite <- (chosen_same ft (Some t) (Some t')) by auto. rewrite CH. cbn [andb]. now rewrite andb_false_r, orb_false_r.
      * intros t' n' e' T' N' E'. rewrite V', V1 by auto. unfold find_section. rewrite kcmp_same by auto. cbn [same_name]. rewrite (same_sym t' t).
        destruct (same t t') eqn:Q; cbn [andb]; auto. rewrite UN by auto. cbn [entry_of merge].
        rewrite <- (chosen_same ft (Some t) (Some t')) by auto. rewrite CH. cbn [andb]. now destruct (chosen fn n' && chosen fe (Some e')).
    + destruct (IH dst a Ws W A) as (d' & a' & -> & W' & A' & S' & V'). exists d', a'. split; auto. split; auto. split; auto.
      unfold find_section. cbn [t_find]. split.
      * intros t' n' T' N'. rewrite S' by auto. unfold find_section. rewrite kcmp_same by auto. cbn [same_name]. rewrite (same_sym t' t).
        destruct (same t t') eqn:Q; auto. rewrite <- (chosen_same ft (Some t) (Some t')) by auto. now rewrite CH.
      * intros t' n' e' T' N' E'. rewrite V' by auto. unfold find_section. rewrite kcmp_same by auto. cbn [same_name]. rewrite (same_sym t' t).
        destruct (same t t') eqn:Q; auto. rewrite <- (chosen_same ft (Some t) (Some t')) by auto. now rewrite CH.
  - cbn in Ws. destruct Ws as (K & _). discriminate.
Qed.

Lemma copy_ok ft fn fe src s dst d : text_name ft -> text_name fn -> text_name fe -> wf src -> agrees src s -> wf dst -> agrees dst d ->
  exists dst' d', append_db junk dst ft fn fe src = Some dst' /\ wf dst' /\ agrees dst' d' /\
    (forall t n, text t -> text_name n -> a_sec d' t n = a_copy_sec d s ft fn t n) /\
    (forall t n e, text t -> text_name n -> text e -> a_val d' t n e = a_copy_val d s ft fn fe t n e).
Proof.
  intros FT FN FE Ws S W A. destruct (append_db_ok ft fn fe FT FN FE src dst d Ws W A) as (dst' & d' & E & W' & A' & S' & V').
  exists dst', d'. split; auto. split; auto. split; auto. unfold a_copy_sec, a_copy_val. split.
  - intros t n T N. rewrite S' by auto. now rewrite (agree_sec _ _ _ _ S T N).
  - intros t n e T N E'. rewrite V' by auto. rewrite (reads_section src s t n e) by auto. reflexivity.
Qed.
End C.
