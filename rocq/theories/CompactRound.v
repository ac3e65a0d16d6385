(** Saving and loading a database. *)
From Verif Require Import Base BitsModel StrBase BufLemmas SplitLemmas NetaddrModel StringModel StringSpec StringProofs StringArrProofs
  CfgModel CfgSpec CfgTree CfgProofs CfgCopy CompactModel CompactSpec CompactProofs.

(** * What a saved file says *)
Definition values_of (a : strarray) : list bytes := match strings a with Some l => l | None => [] end.
Definition cls_entry (e : option bytes) (a : strarray) : list cline := match e with Some e => map (LEntry e) (values_of a) | None => [] end.
Definition cls_entries (es : entries) : list cline := flat_map (fun p => cls_entry (fst p) (snd p)) es.
Definition cls_names (t : bytes) (ns : names) : list cline := flat_map (fun p => LSection t (fst p) :: cls_entries (snd p)) ns.
Definition cls_db (db : cfgdb) : list cline := flat_map (fun p => match fst p with Some t => cls_names t (snd p) | None => [] end) db.
(** the database can be held by the format *)
Definition hold_entry (p : option bytes * strarray) : Prop :=
  match fst p with Some e => e <> [] /\ ident e = true | None => False end /\ forall l, strings (snd p) = Some l -> Forall good_value l.
Definition hold_name (p : option bytes * entries) : Prop := good_name (fst p) /\ Forall hold_entry (snd p).
Definition hold (db : cfgdb) : Prop :=
  Forall (fun p => match fst p with Some t => good_type t | None => False end /\ Forall hold_name (snd p)) db.

Definition says (b : bytes) (cls : list cline) : Prop := Forall is_u8 b /\ exists ls, Lines b ls /\ Forall2 means ls cls.
Lemma says_nil : says [] [].
Proof. split; [constructor|]. exists []. split; constructor. Qed.
Lemma says_line l cl b cls : Forall is_u8 l -> in_line l -> means l cl -> says b cls -> says (l ++ 10 :: b) (cl :: cls).
Proof.
  intros U IL M (Ub & ls & L & F). split. { apply Forall_app. split; auto. constructor; auto. unfold is_u8. lia. }
  exists (l :: ls). split; [constructor; auto; now right|constructor; auto].
Qed.

Lemma ident_char_facts c : ident_char c = true -> isspace c = false /\ c <> 10 /\ c <> 0 /\ c <> 93 /\ c <> 61 /\ c <> 35 /\ c <> 91.
Proof. unfold ident_char, isspace. intros H. lia. Qed.
Lemma ident_all s : ident s = true -> Forall (fun c => ident_char c = true) s.
Proof. unfold ident. intros H. apply andb_true_iff in H as (H & _). now apply Forall_forall, forallb_forall. Qed.
Lemma trimmed_self s : ends_ok s -> trimmed s s.
Proof. intros (H1 & H2). exists [], []. rewrite app_nil_r. repeat split; auto. Qed.
Lemma trimmed_tab s : ends_ok s -> trimmed (9 :: s) s.
Proof. intros (H1 & H2). exists [9], []. rewrite app_nil_r. repeat split; auto. Qed.
Lemma ends_ident s : ident s = true -> ends_ok s.
Proof.
  intros H%ident_all. split; intros; subst.
  - inversion H; subst. now apply ident_char_facts.
  - apply Forall_app in H as (_ & H). inversion H; subst. now apply ident_char_facts.
Qed.
Lemma ident_notin s c : ident s = true -> ident_char c = false -> ~ In c s.
Proof. intros H%ident_all C I. rewrite Forall_forall in H. rewrite (H c I) in C. discriminate. Qed.
Lemma text_u8 s : text s -> Forall is_u8 s.
Proof. apply Forall_impl. unfold is_u8. lia. Qed.
Lemma text_in_line s : text s -> ~ In 10 s -> in_line s.
Proof. intros T I. apply Forall_forall. intros x X. unfold text in T. rewrite Forall_forall in T. specialize (T x X). unfold line_end. intros [-> | ->]; [lia|easy]. Qed.
Lemma in_line_app a b : in_line a -> in_line b -> in_line (a ++ b).
Proof. intros. apply Forall_app; auto. Qed.
Lemma in_line_cons c a : ~ line_end c -> in_line a -> in_line (c :: a).
Proof. intros. constructor; auto. Qed.
Lemma cut_short s : zlen s <= 127 -> cut s = s.
Proof. intros H. unfold cut. apply firstn_all2. unfold zlen in H. lia. Qed.

Lemma says_entry e v b cls : text e -> e <> [] -> ident e = true -> text v -> good_value v -> says b cls ->
  says ((9 :: e ++ 32 :: v ++ [10]) ++ b) (LEntry e v :: cls).
Proof.
  intros Te Ne Ie Tv (Nv & Ev & Lv) S.
  replace ((9 :: e ++ 32 :: v ++ [10]) ++ b) with ((9 :: e ++ 32 :: v) ++ 10 :: b) by spl.
  apply says_line; auto.
  - constructor; [unfold is_u8; lia|]. apply Forall_app. split; [now apply text_u8|]. constructor; [unfold is_u8; lia|now apply text_u8].
  - apply in_line_cons; [unfold line_end; lia|]. apply in_line_app; [apply text_in_line; auto; now apply ident_notin|]. apply in_line_cons; [unfold line_end; lia|]. now apply text_in_line.
  - eapply (m_entry _ e 32 v).
    + apply trimmed_tab. destruct Ev as (E1 & E2). split.
      * intros c r E. destruct e as [|x e]; [easy|]. cbn in E. injection E as <- _. destruct (ends_ident _ Ie) as (H & _). eapply H; eauto.
      * intros r c E. destruct (exists_last Nv) as (u & x & ->). replace (e ++ 32 :: u ++ [x]) with ((e ++ 32 :: u) ++ [x]) in E by spl.
        apply app_inj_tail in E as (_ & <-). eapply E2; eauto.
    + destruct e as [|x e]; [easy|]. apply ident_all in Ie. inversion Ie; subst. cbn. pose proof (ident_char_facts x ltac:(auto)). tauto.
    + apply ident_all in Ie. eapply Forall_impl; [|exact Ie]. intros x X. now apply ident_char_facts.
    + reflexivity.
    + now apply trimmed_self.
Qed.
Lemma says_values e a b cls : text e -> e <> [] -> ident e = true -> goodv a -> (forall l, strings a = Some l -> Forall good_value l) ->
  says b cls -> says (ser_values e (values_of a) ++ b) (map (LEntry e) (values_of a) ++ cls).
Proof.
  intros Te Ne Ie G H S. destruct (goodv_ws _ G) as (ws & E & _ & T & _). specialize (H _ E). unfold values_of. rewrite E. clear E G.
  induction ws as [|v ws IH]; [exact S|]. inversion T; inversion H; subst. cbn [ser_values map app]. rewrite <- app_assoc. apply says_entry; auto.
Qed.
Lemma says_entries es b cls : wfe es -> Forall hold_entry es -> says b cls ->
  exists t, ser_entries es = Some t /\ says (t ++ b) (cls_entries es ++ cls).
Proof.
  intros W H S. induction es as [|([e|], a) es IH]; [exists []; auto| |].
  - cbn [wfe okt] in W. destruct W as (Te & G & _ & W). inversion H as [|? ? HE H']; subst. unfold hold_entry in HE. cbn [fst snd] in HE. destruct HE as ((Ne & Ie) & Hv).
    destruct (IH W H') as (t & E & St). destruct (goodv_ws _ G) as (ws & Ews & _). cbn [ser_entries]. rewrite Ews, E. eexists. split; [reflexivity|].
    cbn [cls_entries flat_map fst snd cls_entry]. fold (cls_entries es). rewrite <- !app_assoc.
    replace ws with (values_of a) by (unfold values_of; now rewrite Ews). apply says_values; auto.
  - inversion H as [|? ? HE H']; subst. try unfold hold_entry in HE. cbn [fst snd] in HE. destruct HE as (X & _). contradiction.
Qed.
Lemma head_says t n : good_type t -> good_name n -> head t (match n with Some x => x | None => [] end) (LSection t n).
Proof.
  intros (Nt & Lt & It) Gn. rewrite <- (cut_short t Lt) at 2. destruct n as [x|].
  - destruct Gn as (Nx & Lx & _ & Sx & _). replace (Some x) with (match x with [] => None | _ => Some (cut x) end).
    + apply head_ok; auto; rewrite cut_short; auto.
    + destruct x; [easy|]. now rewrite cut_short.
  - apply (head_ok t []); auto; [now rewrite cut_short|intros []].
Qed.
Lemma says_head t n b cls : text t -> text_name n -> good_type t -> good_name n -> says b cls ->
  says (match n with Some x => 91 :: t ++ 61 :: x ++ [93; 10] | None => 91 :: t ++ [93; 10] end ++ b) (LSection t n :: cls).
Proof.
  intros Tt Tn Gt Gn S. pose proof (head_says t n Gt Gn) as HD. destruct Gt as (Nt & Lt & It). destruct n as [x|].
  - destruct Gn as (Nx & Lx & Ex & Sx & Bx & Lnx). cbn in Tn.
    replace ((91 :: t ++ 61 :: x ++ [93; 10]) ++ b) with ((91 :: t ++ 61 :: x ++ [93]) ++ 10 :: b) by spl. apply says_line; auto.
    + constructor; [unfold is_u8; lia|]. apply Forall_app. split; [now apply text_u8|]. constructor; [unfold is_u8; lia|]. apply Forall_app. split; [now apply text_u8|]. repeat constructor; unfold is_u8; lia.
    + apply in_line_cons; [unfold line_end; lia|]. apply in_line_app; [apply text_in_line; auto; now apply ident_notin|]. apply in_line_cons; [unfold line_end; lia|].
      apply in_line_app; [now apply text_in_line|]. apply in_line_cons; [unfold line_end; lia|constructor].
    + eapply (m_named _ t x []); [| | | | | |exact HD].
      * apply trimmed_self. split; [intros c r E; injection E as <- _; reflexivity|]. intros r c E.
        replace (91 :: t ++ 61 :: x ++ [93]) with ((91 :: t ++ 61 :: x) ++ [93]) in E by spl. apply app_inj_tail in E as (_ & <-). reflexivity.
      * now apply ident_notin.
      * auto.
      * now apply ident_notin.
      * apply trimmed_self. now apply ends_ident.
      * now apply trimmed_self.
  - replace ((91 :: t ++ [93; 10]) ++ b) with ((91 :: t ++ [93]) ++ 10 :: b) by spl. apply says_line; auto.
    + constructor; [unfold is_u8; lia|]. apply Forall_app. split; [now apply text_u8|]. repeat constructor; unfold is_u8; lia.
    + apply in_line_cons; [unfold line_end; lia|]. apply in_line_app; [apply text_in_line; auto; now apply ident_notin|]. apply in_line_cons; [unfold line_end; lia|constructor].
    + eapply (m_section _ t []); [| | | |exact HD].
      * apply trimmed_self. split; [intros c r E; injection E as <- _; reflexivity|]. intros r c E.
        replace (91 :: t ++ [93]) with ((91 :: t) ++ [93]) in E by spl. apply app_inj_tail in E as (_ & <-). reflexivity.
      * now apply ident_notin.
      * now apply ident_notin.
      * apply trimmed_self. now apply ends_ident.
Qed.
Lemma says_names t ns b cls : text t -> good_type t -> wfn ns -> Forall hold_name ns -> says b cls ->
  exists x, ser_names t ns = Some x /\ says (x ++ b) (cls_names t ns ++ cls).
Proof.
  intros Tt Gt W H S. induction ns as [|(n, es) ns IH]; [exists []; auto|].
  cbn [wfn okt] in W. destruct W as (Tn & We & _ & W). inversion H as [|? ? HE H']; subst. unfold hold_name in HE. cbn [fst snd] in HE. destruct HE as (Gn & He).
  destruct (IH W H') as (x & E & Sx). destruct (says_entries es (x ++ b) (cls_names t ns ++ cls) We He Sx) as (y & Ey & Sy).
  cbn [ser_names]. rewrite Ey, E. eexists. split; [reflexivity|]. cbn [cls_names flat_map fst snd]. fold (cls_names t ns).
  change ((LSection t n :: cls_entries es) ++ cls_names t ns) with (LSection t n :: cls_entries es ++ cls_names t ns). cbn [app].
  rewrite <- !app_assoc. apply says_head; auto. eapply okkey_text; eauto.
Qed.
Lemma says_db db : wf db -> hold db -> exists x, serialize db = Some x /\ says x (cls_db db).
Proof.
  intros W H. induction db as [|([t|], ns) db IH]; [exists []; split; auto; apply says_nil| |].
  - cbn [wf okt] in W. destruct W as (Tt & Wn & _ & W). inversion H as [|? ? HE H']; subst. cbn [fst snd] in HE. destruct HE as (Gt & Hn).
    destruct (IH W H') as (x & E & Sx). destruct (says_names t ns x (cls_db db) Tt Gt Wn Hn Sx) as (y & Ey & Sy).
    cbn [serialize]. rewrite Ey, E. eexists. split; [reflexivity|]. exact Sy.
  - inversion H as [|? ? HE H']; subst. try unfold hold_entry in HE. cbn [fst snd] in HE. destruct HE as (X & _). contradiction.
Qed.

(** * The operations of the file *)
Definition ops_entry (t : bytes) (n : option bytes) (e : option bytes) (a : strarray) : list cop :=
  match e with Some e => map (fun v => CSet t n e v true true) (values_of a) | None => [] end.
Definition ops_entries t n (es : entries) : list cop := flat_map (fun p => ops_entry t n (fst p) (snd p)) es.
Definition ops_names (t : bytes) (ns : names) : list cop := flat_map (fun p => CAddSection t (fst p) :: ops_entries t (fst p) (snd p)) ns.
Definition ops_db (db : cfgdb) : list cop := flat_map (fun p => match fst p with Some t => ops_names t (snd p) | None => [] end) db.

Lemma follow_values t n e vs : ident e = true -> forall cls ops, follow (Some (t, n)) cls = Some (ops, 0) ->
  follow (Some (t, n)) (map (LEntry e) vs ++ cls) = Some (map (fun v => CSet t n e v true true) vs ++ ops, 0).
Proof.
  intros I. induction vs as [|v vs IH]; intros cls ops F; auto. cbn [map app follow one_line]. rewrite I. change (0 =? 0) with true. cbn match.
  rewrite (IH cls ops F). reflexivity.
Qed.
Lemma follow_entries t n es : Forall hold_entry es -> forall cls ops, follow (Some (t, n)) cls = Some (ops, 0) ->
  follow (Some (t, n)) (cls_entries es ++ cls) = Some (ops_entries t n es ++ ops, 0).
Proof.
  intros H. induction es as [|([e|], a) es IH]; intros cls ops F; auto; inversion H as [|? ? X H']; subst; unfold hold_entry in X; cbn [fst snd] in X; destruct X as (X & _); [|contradiction].
  cbn [cls_entries ops_entries flat_map fst snd cls_entry ops_entry]. fold (cls_entries es). fold (ops_entries t n es). rewrite <- !app_assoc.
  apply follow_values; [tauto|]. now apply IH.
Qed.
Lemma follow_names t ns : Forall hold_name ns -> forall cur cls ops, (forall cur, follow cur cls = Some (ops, 0)) ->
  follow cur (cls_names t ns ++ cls) = Some (ops_names t ns ++ ops, 0).
Proof.
  induction 1 as [|(n, es) ns (_ & He) H IH]; intros cur cls ops F; [apply F|]. cbn [cls_names ops_names flat_map fst snd] in *.
  fold (cls_names t ns). fold (ops_names t ns). cbn [app follow one_line]. change (0 =? 0) with true. cbn match.
  rewrite <- !app_assoc. rewrite (follow_entries t n es He _ (ops_names t ns ++ ops)); [reflexivity|]. now apply IH.
Qed.
Lemma follow_db db : hold db -> forall cur, follow cur (cls_db db) = Some (ops_db db, 0).
Proof.
  intros H. induction db as [|([t|], ns) db IH]; intros cur; auto; inversion H as [|? ? X H']; subst; cbn [fst snd] in X; destruct X as (X & Hn); [|contradiction].
  cbn [cls_db ops_db flat_map fst snd]. apply follow_names; auto.
Qed.

(** * The database afterwards *)
Fixpoint a_ops (a : acfg) (ops : list cop) : acfg := match ops with [] => a | o :: ops' => a_ops (fst (a_step a o)) ops' end.
Lemma a_ops_app ops1 : forall a ops2, a_ops a (ops1 ++ ops2) = a_ops (a_ops a ops1) ops2.
Proof. induction ops1 as [|o ops1 IH]; intros; cbn; auto. Qed.

Lemma ops_values t n e vs : forall a,
  let a' := a_ops a (map (fun v => CSet t n e v true true) vs) in
  (forall t' n', a_sec a' t' n' = a_sec a t' n' || (match vs with [] => false | _ => true end && same t t' && same_name n n')) /\
  (forall t' n' e', a_val a' t' n' e' = if same t t' && same_name n n' && same e e' then match vs with [] => a_val a t' n' e' | _ => Some (rev vs ++ values (a_val a t n e)) end else a_val a t' n' e').
Proof.
  induction vs as [|v vs IH]; intros a.
  - cbn. split; intros; [now rewrite orb_false_r|now destruct (_ && _)].
  - cbn zeta. cbn [map a_ops]. specialize (IH (fst (a_step a (CSet t n e v true true)))). cbn zeta in IH. destruct IH as (I1 & I2).
    cbn [a_step fst] in *. split.
    + intros t' n'. rewrite I1. cbn [a_put a_add a_sec]. destruct (same t t'), (same_name n n'), (a_sec a t' n'), vs; reflexivity.
    + intros t' n' e'. rewrite I2. cbn [a_put a_add a_val]. rewrite same_refl, same_name_refl, same_refl. cbn [andb values].
      destruct (same t t' && same_name n n' && same e e'); auto. destruct vs; [reflexivity|]. cbn [rev]. now rewrite <- !app_assoc.
Qed.
Lemma ops_entries_ok t n es : wfe es -> forall a, (forall e, text e -> t_find es (Some e) <> None -> a_val a t n e = None) -> a_sec a t n = true ->
  let a' := a_ops a (ops_entries t n es) in
  (forall t' n', a_sec a t' n' = true -> a_sec a' t' n' = true) /\
  (forall t' n', a_sec a' t' n' = true -> a_sec a t' n' = true \/ same t t' && same_name n n' = true) /\
  (forall t' n' e', text e' -> a_val a' t' n' e' = if same t t' && same_name n n' then match content (t_find es (Some e')) with Some l => Some (rev l) | None => a_val a t' n' e' end else a_val a t' n' e').
Proof.
  induction es as [|([e|], x) es IH]; intros W a FR SEC.
  - cbn. split; auto. split; auto. intros. now destruct (_ && _).
  - cbn [wfe okt] in W. destruct W as (Te & G & LT & W). cbn [okkey] in Te.
    assert (forall e', text e' -> same e e' = true -> t_find es (Some e') = None) as UN.
    { intros e' E' S. rewrite <- (find_same true goodv es (Some e) (Some e')) by auto. apply (find_none_head true goodv); auto. }
    cbn zeta. cbn [ops_entries flat_map fst snd ops_entry]. fold (ops_entries t n es). rewrite a_ops_app.
    destruct (goodv_ws _ G) as (ws & Ews & Nws & _). assert (values_of x = ws) as VE by (unfold values_of; now rewrite Ews). rewrite VE.
    pose proof (ops_values t n e ws a) as (V1 & V2). cbn zeta in V1, V2. set (a1 := a_ops a (map (fun v => CSet t n e v true true) ws)) in *.
    assert (a_val a t n e = None) as AN. { apply FR; auto. cbn [t_find]. rewrite kcmp_same by auto. cbn [same_name]. now rewrite same_refl. }
    specialize (IH W a1). destruct IH as (I1 & I2 & I3).
    + intros e' E' F. rewrite V2. rewrite same_refl, same_name_refl. cbn [andb]. destruct (same e e') eqn:S; [now rewrite (UN e' E' S) in F|].
      apply FR; auto. cbn [t_find]. rewrite kcmp_same by auto. cbn [same_name]. rewrite same_sym, S. auto.
    + rewrite V1, SEC. reflexivity.
    + split; [|split].
      * intros t' n' H. apply I1. rewrite V1, H. reflexivity.
      * intros t' n' H. destruct (I2 t' n' H) as [H1|H1]; auto. rewrite V1 in H1. apply orb_true_iff in H1 as [H1|H1]; auto. right.
        rewrite <- andb_assoc in H1. now apply andb_true_iff in H1 as (_ & H1).
      * intros t' n' e' E'. rewrite I3 by auto. rewrite V2. destruct (same t t' && same_name n n'); auto. cbn [andb].
        cbn [t_find]. rewrite kcmp_same by auto. cbn [same_name]. rewrite (same_sym e' e). destruct (same e e') eqn:S.
        -- rewrite UN by auto. cbn [content]. rewrite Ews. rewrite AN. cbn [values]. rewrite app_nil_r. destruct ws; [easy|]. reflexivity.
        -- reflexivity.
  - cbn in W. destruct W as (K & _). discriminate.
Qed.
Lemma ops_names_ok t ns : text t -> wfn ns -> forall a, (forall n e, text_name n -> text e -> t_find ns n <> None -> a_val a t n e = None) ->
  let a' := a_ops a (ops_names t ns) in
  (forall t' n', text_name n' -> (a_sec a' t' n' = true <-> a_sec a t' n' = true \/ same t t' = true /\ has (t_find ns n') = true)) /\
  (forall t' n' e', text_name n' -> text e' -> a_val a' t' n' e' = if same t t' then match entry_of (t_find ns n') e' with Some l => Some (rev l) | None => a_val a t' n' e' end else a_val a t' n' e').
Proof.
  intros T. induction ns as [|(n, es) ns IH]; intros W a FR.
  - cbn. split; [|intros; now destruct (same t t')]. intros. split; auto. intros [|(_ & X)]; auto. discriminate.
  - cbn [wfn okt] in W. destruct W as (Tn & We & LT & W). apply okkey_text in Tn.
    assert (forall n', text_name n' -> same_name n n' = true -> t_find ns n' = None) as UN.
    { intros n' N' S. rewrite <- (find_same false wfe ns n n') by auto. apply (find_none_head false wfe); auto. }
    assert (t_find ((n, es) :: ns) n = Some es) as FN. { cbn [t_find]. rewrite kcmp_same by auto. now rewrite same_name_refl. }
    cbn zeta. cbn [ops_names flat_map fst snd]. fold (ops_names t ns). cbn [app a_ops]. rewrite a_ops_app. cbn [a_step fst].
    destruct (ops_entries_ok t n es We (a_add a t n)) as (E1 & E2 & E3).
    { intros e Te F. cbn [a_add a_val]. apply FR; auto. rewrite FN. discriminate. }
    { cbn. rewrite same_refl, same_name_refl. reflexivity. }
    cbn zeta in E1, E2, E3. set (a1 := a_ops (a_add a t n) (ops_entries t n es)) in *.
    destruct (IH W a1) as (I1 & I2).
    { intros n' e' N' E' F. rewrite E3 by auto. rewrite same_refl. cbn [andb]. destruct (same_name n n') eqn:S; [now rewrite UN in F|].
      cbn [a_add a_val]. apply FR; auto. cbn [t_find]. rewrite kcmp_same by auto. rewrite same_name_sym, S. auto. }
    split.
    + intros t' n' N'. rewrite I1 by auto. cbn [t_find]. rewrite kcmp_same by auto. rewrite (same_name_sym n' n).
      destruct (same_name n n') eqn:S.
      * rewrite UN by auto. cbn [has]. split.
        -- intros [H|(_ & H)]; [|discriminate]. destruct (E2 _ _ H) as [H1|H1].
           ++ cbn in H1. rewrite S, andb_true_r in H1. apply orb_true_iff in H1 as [H1|H1]; auto.
           ++ rewrite S, andb_true_r in H1. auto.
        -- intros [H|(H & _)]; left; apply E1; cbn; rewrite ?S, ?H; auto; now rewrite orb_true_r.
      * split.
        -- intros [H|H]; auto. destruct (E2 _ _ H) as [H1|H1].
           ++ cbn in H1. rewrite S, andb_false_r in H1. auto.
           ++ rewrite S, andb_false_r in H1. discriminate.
        -- intros [H|H]; auto. left. apply E1. cbn. rewrite H. now rewrite orb_true_r.
    + intros t' n' e' N' E'. rewrite I2 by auto. rewrite E3 by auto. cbn [a_add a_val t_find]. rewrite kcmp_same by auto. rewrite (same_name_sym n' n).
      destruct (same t t'); auto. cbn [andb]. destruct (same_name n n') eqn:S; auto. rewrite UN by auto. reflexivity.
Qed.
Lemma ops_db_ok db : wf db -> forall a, (forall t n e, text t -> text_name n -> text e -> t_find db (Some t) <> None -> a_val a t n e = None) ->
  let a' := a_ops a (ops_db db) in
  (forall t' n', text t' -> text_name n' -> (a_sec a' t' n' = true <-> a_sec a t' n' = true \/ has (find_section db t' n') = true)) /\
  (forall t' n' e', text t' -> text_name n' -> text e' -> a_val a' t' n' e' = match entry_of (find_section db t' n') e' with Some l => Some (rev l) | None => a_val a t' n' e' end).
Proof.
  induction db as [|([t|], ns) db IH]; intros W a FR.
  - cbn. split; auto. intros. split; auto. intros [|X]; auto. discriminate.
  - cbn [wf okt] in W. destruct W as (T & Wn & LT & W). cbn [okkey] in T.
    assert (forall t', text t' -> same t t' = true -> t_find db (Some t') = None) as UN.
    { intros t' T' S. rewrite <- (find_same true wfn db (Some t) (Some t')) by auto. apply (find_none_head true wfn); auto. }
    assert (forall t', text t' -> t_find ((Some t, ns) :: db) (Some t') = if same t t' then Some ns else t_find db (Some t')) as FN.
    { intros t' T'. cbn [t_find]. rewrite kcmp_same by auto. cbn [same_name]. now rewrite same_sym. }
    cbn zeta. cbn [ops_db flat_map fst snd]. fold (ops_db db). rewrite a_ops_app.
    destruct (ops_names_ok t ns T Wn a) as (N1 & N2).
    { intros n e Tn Te F. apply FR; auto. rewrite FN, same_refl by auto. discriminate. }
    cbn zeta in N1, N2. set (a1 := a_ops a (ops_names t ns)) in *. destruct (IH W a1) as (I1 & I2).
    { intros t' n' e' T' N' E' F. rewrite N2 by auto. destruct (same t t') eqn:S; [now rewrite UN in F|]. apply FR; auto. now rewrite FN, S by auto. }
    unfold find_section in *. split.
    + intros t' n' T' N'. rewrite I1, N1, FN by auto. destruct (same t t') eqn:S.
      * rewrite UN by auto. cbn [has]. intuition discriminate.
      * intuition discriminate.
    + intros t' n' e' T' N' E'. rewrite I2, N2, FN by auto. destruct (same t t') eqn:S; auto. rewrite UN by auto. reflexivity.
  - cbn in W. destruct W as (K & _). discriminate.
Qed.

(** the operations have texts *)
Lemma ops_db_text db : wf db -> Forall op_text (ops_db db).
Proof.
  induction db as [|([t|], ns) db IH]; intros W; [constructor| |cbn in W; destruct W as (K & _); discriminate].
  cbn [wf okt] in W. destruct W as (T & Wn & _ & W). cbn [okkey] in T. cbn [ops_db flat_map fst snd]. apply Forall_app. split; auto. clear W IH.
  induction ns as [|(n, es) ns IH]; [constructor|]. cbn [wfn okt] in Wn. destruct Wn as (Tn & We & _ & Wn). apply okkey_text in Tn.
  cbn [ops_names flat_map fst snd app]. constructor; [cbn; auto|]. apply Forall_app. split; [|apply IH; auto]. clear Wn IH.
  induction es as [|([e|], x) es IH]; [constructor| |cbn in We; destruct We as (K & _); discriminate]. cbn [wfe okt] in We. destruct We as (Te & G & _ & We).
  cbn [ops_entries flat_map fst snd ops_entry]. apply Forall_app. split; [|apply IH; auto]. destruct (goodv_ws _ G) as (ws & E & _ & Tw & _). unfold values_of. rewrite E.
  apply Forall_map. eapply Forall_impl; [|exact Tw]. cbn. auto.
Qed.
Lemma run_a_ops junk ops : forall db a, wf db -> agrees db a -> Forall op_text ops ->
  exists db' rs, c_run junk db (full ops) = Some (db', rs) /\ wf db' /\ agrees db' (a_ops a ops).
Proof.
  induction ops as [|o ops IH]; intros db a W A F; [exists db, []; auto|]. inversion F as [|? ? O F']; subst.
  destruct (step_okay all_mem junk db a o W A O) as (d1 & r & E & W1 & [(S & A1)|(X & _)]); [destruct o; cbn; auto; now destruct append| |now destruct X].
  destruct (IH d1 _ W1 A1 F') as (d2 & rs & E2 & W2 & A2). exists d2, (r :: rs). cbn [full map c_run]. fold (full ops). rewrite E, E2. auto.
Qed.

Lemma round_trip junk db a slack : wf db -> agrees db a -> hold db ->
  exists x db' rs, serialize db = Some x /\ compact_parse junk [] x slack = Some (db', 0) /\ c_run junk [] (full (ops_db db)) = Some (db', rs) /\ wf db' /\
    (forall t n, text t -> text_name n -> has (find_section db' t n) = has (find_section db t n)) /\
    (forall t n e, text t -> text_name n -> text e -> reads db' t n e = match reads db t n e with Some o => Some (option_map (@rev bytes) o) | None => None end).
Proof.
  intros W A H. destruct (says_db db W H) as (x & E & U & ls & L & F).
  destruct (run_a_ops junk (ops_db db) [] a_empty wf_empty agrees_empty (ops_db_text db W)) as (db' & rs & R & W' & A').
  destruct (file_ok junk x ls L (cls_db db) F (length x) {| p_mem := x ++ 0 :: slack; p_section := []; p_name := []; p_db := [] |} a_empty [] slack None (ops_db db) 0) as (s' & rs' & P & C); auto using wf_empty, agrees_empty.
  { cbn. reflexivity. }
  { apply follow_db. auto. }
  cbn [p_db] in C. rewrite R in C. injection C as E1 E2. change (parse_lines (length x) junk {| p_mem := x ++ 0 :: slack; p_section := []; p_name := []; p_db := [] |} (zlen x) 0 = Some (s', 0)) in P.
  exists x, db', rs. split; auto. split; [unfold compact_parse; rewrite P, E1; reflexivity|]. split; auto. split; auto.
  destruct (ops_db_ok db W a_empty) as (S & V); auto. cbn zeta in S, V. split.
  - intros t n T N. rewrite (agree_sec _ _ _ _ A' T N). apply eq_true_iff_eq. rewrite S by auto. cbn. intuition discriminate.
  - intros t n e T N Te. destruct A as (_ & _ & A3). rewrite (A3 t n e) by auto. destruct A' as (_ & _ & A3'). rewrite (A3' t n e) by auto. rewrite V by auto.
    specialize (A3 t n e T N Te). rewrite reads_eq in A3. unfold reade in A3. unfold entry_of, content.
    destruct (find_section db t n) as [es|]; [|injection A3 as <-; reflexivity]. destruct (t_find es (Some e)) as [v|]; [|injection A3 as <-; reflexivity].
    destruct (strings v) as [l|]; [|discriminate]. injection A3 as <-. reflexivity.
Qed.

(** * The databases of good operations can be held by the format *)
Section Keys.
Context {A : Type} (Q : option bytes * A -> Prop).
Lemma insert_keys l k x : Forall Q l -> Q (k, x) -> Forall Q (t_insert l k x).
Proof. intros F H. induction F as [|(k', y) l Hd F IH]; cbn; [auto|]. destruct (_ <? _); auto. Qed.
Lemma update_keys l k x : Forall Q l -> (forall k' y, Q (k', y) -> Q (k', x)) -> Forall Q (t_update l k x).
Proof. intros F H. induction F as [|(k', y) l Hd F IH]; cbn; [auto|]. destruct (_ =? _); eauto. Qed.
Lemma remove_keys l k : Forall Q l -> Forall Q (t_remove l k).
Proof. intros F. induction F as [|(k', y) l Hd F IH]; cbn; [auto|]. destruct (_ =? _); auto. Qed.
Lemma find_keys l k x : Forall Q l -> t_find l k = Some x -> exists k', Q (k', x).
Proof. intros F. induction F as [|(k', y) l Hd F IH]; cbn; [discriminate|]. destruct (_ =? _); auto. intros [= <-]. eauto. Qed.
End Keys.
Definition ke (p : option bytes * strarray) : Prop := match fst p with Some e => e <> [] /\ ident e = true | None => False end.
Definition kn (p : option bytes * entries) : Prop := good_name (fst p) /\ Forall ke (snd p).
Definition kt (p : option bytes * names) : Prop := match fst p with Some t => good_type t | None => False end /\ Forall kn (snd p).
Definition keys (db : cfgdb) : Prop := Forall kt db.

Lemma keys_find db t n es : keys db -> find_section db t n = Some es -> Forall ke es.
Proof.
  unfold find_section. intros K F. destruct (t_find db (Some t)) as [ns|] eqn:E; [|discriminate].
  destruct (find_keys _ _ _ _ K E) as (k & _ & H). destruct (find_keys _ _ _ _ H F) as (k' & _ & H'). exact H'.
Qed.
Lemma keys_type db t ns : keys db -> t_find db (Some t) = Some ns -> Forall kn ns.
Proof. intros K F. destruct (find_keys _ _ _ _ K F) as (k & _ & H). exact H. Qed.
Lemma keys_update db t ns : keys db -> Forall kn ns -> keys (t_update db t ns).
Proof. intros K H. apply update_keys; auto. intros k y (H1 & H2). split; auto. Qed.
Lemma keys_add m db t n : keys db -> good_type t -> good_name n -> keys (fst (fst (add_section m db t n))).
Proof.
  intros K T N. unfold add_section. destruct (t_find db (Some t)) as [ns|] eqn:F.
  - pose proof (keys_type _ _ _ K F) as H. destruct (t_find ns n); auto. destruct (ok_name m); auto. cbn [fst].
    apply keys_update; auto. apply insert_keys; auto. split; auto. constructor.
  - assert (keys (t_insert db (Some t) [])). { apply insert_keys; auto. split; auto. constructor. }
    destruct (ok_type m); auto. destruct (ok_name m); auto. cbn [fst]. apply keys_update; auto. repeat constructor; auto.
Qed.
Lemma keys_put db t n es : keys db -> Forall ke es -> keys (put_section db t n es).
Proof.
  intros K H. unfold put_section. destruct (t_find db (Some t)) as [ns|] eqn:F; auto. apply keys_update; auto.
  apply update_keys; [now apply (keys_type _ _ _ K F)|]. intros k y (H1 & _). split; auto.
Qed.
Lemma keys_drop db t n : keys db -> keys (drop_section db t n).
Proof.
  intros K. unfold drop_section. destruct (t_find db (Some t)) as [ns|] eqn:F; auto. apply keys_update; auto.
  apply remove_keys. now apply (keys_type _ _ _ K F).
Qed.
Lemma keys_set m junk db t n e v ap fr db' ok : keys db -> good_type t -> good_name n -> e <> [] -> ident e = true ->
  set_entry m junk db t n e v ap fr = Some (db', ok) -> keys db'.
Proof.
  intros K T N Ne Ie H. unfold set_entry in H. pose proof (keys_add m db t n K T N) as K1.
  destruct (add_section m db t n) as ((db1, ok1), new). cbn [fst] in K1. destruct (negb ok1); [now injection H as <- _|].
  destruct (find_section db1 t n) as [es|] eqn:F; [|discriminate]. pose proof (keys_find _ _ _ _ K1 F) as KE.
  assert (keys (if new then drop_section db1 t n else db1)) as KF by (destruct new; auto using keys_drop).
  destruct (t_find es (Some e)) as [a0|].
  - destruct ((if fr then sa_prepend else sa_append) (ok_value m) junk (if ap then a0 else sa_init) v) as [(r, a)|]; [|discriminate].
    assert (Forall ke (t_update es (Some e) a)) as KU. { apply update_keys; auto. }
    destruct (r =? 0); injection H as <- _; now apply keys_put.
  - destruct (negb (ok_entry m)); [now injection H as <- _|].
    destruct ((if fr then sa_prepend else sa_append) (ok_value m) junk sa_init v) as [(r, a)|]; [|discriminate].
    destruct (r =? 0); injection H as <- _; auto. apply keys_put; auto. apply insert_keys; auto. split; auto.
Qed.
Lemma keys_step m junk db o db' r : keys db -> op_good o -> c_step m junk db o = Some (db', r) -> keys db'.
Proof.
  intros K G H. destruct o; cbn [c_step op_good] in *.
  - pose proof (keys_add m db type name K ltac:(tauto) ltac:(tauto)). destruct (add_section m db type name) as ((d, ok), nw). now injection H as <- _.
  - destruct (set_entry _ _ _ _ _ _ _ _ _) as [(d, ok)|] eqn:S; [|discriminate]. injection H as <- _. destruct G as (? & ? & ? & ? & _). eapply keys_set; eauto.
  - unfold remove_type in H. destruct (t_find _ _); injection H as <- _; auto. now apply remove_keys.
  - unfold remove_section in H. destruct (find_section _ _ _); injection H as <- _; auto. now apply keys_drop.
  - unfold remove_entry in H. destruct (find_section _ _ _) as [es|] eqn:F; [|now injection H as <- _]. pose proof (keys_find _ _ _ _ K F).
    destruct (t_find _ _); injection H as <- _; auto. apply keys_put; auto. now apply remove_keys.
  - unfold remove_element in H. destruct (find_section _ _ _) as [es|] eqn:F; [|now injection H as <- _]. pose proof (keys_find _ _ _ _ K F).
    destruct (t_find es _) as [a|]; [|now injection H as <- _]. destruct (sa_get a 1) as [[|]|]; [| |discriminate].
    + destruct (sa_offsets a); [|discriminate]. destruct (first_equal _ _ _) as [[o|]|]; [| now injection H as <- _|discriminate].
      destruct (sa_remove _ _ _ _ _); [|discriminate]. injection H as <- _. apply keys_put; auto. apply update_keys; auto.
    + destruct (sa_string a 0); [|discriminate]. destruct (str_eqb _ _); injection H as <- _; auto. apply keys_put; auto. now apply remove_keys.
Qed.
Lemma keys_run junk ops : forall db db' rs, keys db -> Forall (fun p => op_good (snd p)) ops -> c_run junk db ops = Some (db', rs) -> keys db'.
Proof.
  induction ops as [|(m, o) ops IH]; intros db db' rs K F H; cbn [c_run] in H; [now injection H as <- _|]. inversion F; subst.
  destruct (c_step m junk db o) as [(d, r)|] eqn:S; [|discriminate]. destruct (c_run junk d ops) as [(d', rs')|] eqn:R; [|discriminate]. injection H as <- _.
  eapply IH; [|eauto|exact R]. eapply keys_step; eauto.
Qed.

Definition vals_good (a : acfg) : Prop := forall t n e, Forall good_value (values (a_val a t n e)).
Lemma remove_first_in v l x : In x (remove_first v l) -> In x l.
Proof. induction l as [|y l IH]; cbn; auto. match goal with |- context [if ?b then _ else _] => destruct b end; cbn; tauto. Qed.
Lemma vals_step a o : vals_good a -> op_good o -> vals_good (fst (a_step a o)).
Proof.
  intros V G. destruct o; cbn [a_step op_good] in *.
  - exact V.
  - intros t' n' e'. cbn [fst a_put a_add a_val]. destruct (_ && _); [|apply V]. cbn [values].
    assert (Forall good_value (if append then values (a_val a type name entry) else [])) by (destruct append; auto; constructor).
    destruct G as (_ & _ & _ & _ & G). destruct front; [constructor; auto|]. apply Forall_app. split; auto.
  - destruct (a_type a type); auto. cbn [fst]. intros t' n' e'. cbn [a_drop_type a_val]. destruct (same type t'); [constructor|apply V].
  - destruct (a_sec a type name); auto. cbn [fst]. intros t' n' e'. cbn [a_drop_section a_val]. destruct (_ && _); [constructor|apply V].
  - destruct (a_val a type name entry); auto. cbn [fst]. intros t' n' e'. cbn [a_put a_val]. destruct (_ && _); [constructor|apply V].
  - destruct (existsb _ _); auto. cbn [fst]. intros t' n' e'. cbn [a_put a_val]. destruct (_ && _); [|apply V].
    assert (Forall good_value (remove_first value (values (a_val a type name entry)))).
    { apply Forall_forall. intros x X%remove_first_in. specialize (V type name entry). rewrite Forall_forall in V. auto. }
    destruct (remove_first _ _); auto.
Qed.
Lemma vals_ops ops : forall a, vals_good a -> Forall op_good ops -> vals_good (a_ops a ops).
Proof. induction ops as [|o ops IH]; intros a V F; auto. inversion F; subst. cbn. apply IH; auto. now apply vals_step. Qed.

Lemma okt_find nn {A} (P : A -> Prop) l k x : okt nn P l -> In (k, x) l -> t_find l k = Some x.
Proof.
  intros O. induction l as [|(k', y) l IH]; [easy|]. pose proof (okt_keys nn P _ O) as KS. cbn [okt] in O. destruct O as (K & Py & LT & O). intros [E|I].
  - injection E as -> ->. cbn [t_find]. rewrite kcmp_same by eauto using okkey_text. now rewrite same_name_refl.
  - cbn [t_find]. rewrite Forall_forall in LT. specialize (LT _ I). cbn [fst] in LT. rewrite Forall_forall in KS. specialize (KS (k, x) (or_intror I)) as (Kk & _). cbn [fst] in Kk.
    rewrite kcmp_same by eauto using okkey_text. pose proof (kcmp_same k' k ltac:(eauto using okkey_text) ltac:(eauto using okkey_text)) as E. rewrite same_name_sym. rewrite <- E.
    replace (kcmp k' k =? 0) with false by lia. auto.
Qed.
Lemma keys_hold db a : wf db -> agrees db a -> vals_good a -> keys db -> hold db.
Proof.
  intros W A V K. apply Forall_forall. intros (t, ns) It. unfold keys in K. rewrite Forall_forall in K. destruct (K _ It) as (Kt & Kn). cbn [fst snd] in *. split; auto.
  destruct t as [t|]; [|contradiction]. pose proof (okt_find _ _ _ _ _ W It) as Ft. pose proof (okt_keys _ _ _ W) as W1. rewrite Forall_forall in W1. destruct (W1 _ It) as (Tt & Wn). cbn [fst snd] in *.
  apply Forall_forall. intros (n, es) In_. rewrite Forall_forall in Kn. destruct (Kn _ In_) as (Kn1 & Ke). cbn [fst snd] in *. split; auto. cbn [snd].
  pose proof (okt_find _ _ _ _ _ Wn In_) as Fn. pose proof (okt_keys _ _ _ Wn) as W2. rewrite Forall_forall in W2. destruct (W2 _ In_) as (Tn & We). cbn [fst snd] in *.
  apply Forall_forall. intros (e, x) Ie. rewrite Forall_forall in Ke. pose proof (Ke _ Ie) as Ke1. unfold ke in Ke1. cbn [fst] in Ke1. destruct e as [e|]; [|contradiction].
  split; auto. cbn [snd]. intros l L. pose proof (okt_find _ _ _ _ _ We Ie) as Fe. pose proof (okt_keys _ _ _ We) as W3. rewrite Forall_forall in W3. destruct (W3 _ Ie) as (Te & _). cbn [fst snd okkey] in *.
  destruct A as (_ & _ & A). specialize (A t n e Tt ltac:(eauto using okkey_text) Te). unfold reads, find_entry, find_section in A. rewrite Ft, Fn, Fe, L in A. injection A as A.
  specialize (V t n e). now rewrite <- A in V.
Qed.

Lemma good_round junk ops slack : Forall op_text ops -> Forall op_good ops ->
  exists db rs x db', c_run junk [] (full ops) = Some (db, rs) /\ wf db /\ serialize db = Some x /\ compact_parse junk [] x slack = Some (db', 0) /\ 
    (forall t n, text t -> text_name n -> has (find_section db' t n) = has (find_section db t n)) /\
    (forall t n e, text t -> text_name n -> text e -> exists o, reads db t n e = Some o /\ reads db' t n e = Some (option_map (@rev bytes) o)).
Proof.
  intros T G. destruct (run_a_ops junk ops [] a_empty wf_empty agrees_empty T) as (db & rs & R & W & A).
  assert (hold db) as H. { eapply keys_hold; eauto. - apply vals_ops; auto. intros t n e. constructor. - eapply keys_run; [| |exact R]; [constructor|]. now apply Forall_map. }
  destruct (round_trip junk db _ slack W A H) as (x & db' & rs' & E & P & _ & W' & S & V). exists db, rs, x, db'. repeat (split; auto).
  intros t n e Tt Tn Te. rewrite V by auto. destruct A as (_ & _ & A). rewrite A by auto. eauto.
Qed.
