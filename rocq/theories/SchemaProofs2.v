(** Validation with cleanup (C101). *)
From Verif Require Import Base BitsModel StrBase CompModel StringModel CfgModel CfgSpec CfgTree SchemaModel SchemaSpec SchemaProofs.

Definition checked (ses : list sentry) : list sentry := filter (fun e => present (e_check e)) ses.
Definition keptv (e : sentry) (vs : svals) : option svals :=
  match e_check e with None => Some vs | Some c => match kept c (e_list e) vs with [] => None | l => Some l end end.
Definition clean1 (ses : list sentry) (vs : svals) : option svals := match checked ses with [] => Some vs | e :: _ => keptv e vs end.
Lemma with_rest ses cur w : checked ses = [] -> check_with ses true cur w = Some (cur, w).
Proof.
  induction ses as [|e ses IH]; intros E; [reflexivity|]. cbn [check_with checked filter] in *. destruct (e_check e); cbn [present] in E; [discriminate|]. apply IH, E.
Qed.
Lemma rest_fine ses vs : checked ses = [] -> existsb (fun e => bade e vs) ses = false.
Proof.
  induction ses as [|e ses IH]; intros E; [reflexivity|]. cbn [existsb checked filter] in *. unfold bade at 1. destruct (e_check e); cbn [present] in E; [discriminate|]. apply IH, E.
Qed.
Lemma with_clean ses vs : (length (checked ses) <= 1)%nat -> check_with ses true (Some vs) false = Some (clean1 ses vs, existsb (fun e => bade e vs) ses).
Proof.
  induction ses as [|e ses IH]; intros L; [reflexivity|]. cbn [check_with existsb]. unfold clean1, checked in *. cbn [filter] in *. unfold bade at 1. destruct (e_check e) as [c|] eqn:E; cbn [present length] in *.
  - assert (checked ses = []) as R. { unfold checked. destruct (filter _ ses); [reflexivity|cbn in L; lia]. }
    rewrite loop_clean, with_rest, rest_fine by exact R. rewrite Bool.orb_false_r. unfold keptv. rewrite E. destruct (kept c (e_list e) vs); reflexivity.
  - rewrite IH by exact L. reflexivity.
Qed.
Lemma good_prefix_fine c vs : Forall (fun v => c v = true) (good_prefix c vs).
Proof. induction vs as [|v vs IH]; cbn; [constructor|]. destruct (c v) eqn:E; constructor; auto. Qed.
Lemma good_prefix_all c vs : Forall (fun v => c v = true) vs -> good_prefix c vs = vs.
Proof. induction 1 as [|v vs E F IH]; cbn; [reflexivity|]. rewrite E, IH. reflexivity. Qed.
Lemma good_prefix_prefix c vs : exists suf, vs = good_prefix c vs ++ suf.
Proof.
  induction vs as [|v vs [suf IH]]; cbn; [exists []; reflexivity|]. destruct (c v); [exists suf; rewrite IH at 1; reflexivity|exists (v :: vs); reflexivity].
Qed.
Lemma keptv_fine e vs vs' : keptv e vs = Some vs' -> fine e vs' /\ (exists suf, vs = vs' ++ suf) /\ (vs <> [] -> vs' <> []).
Proof.
  unfold keptv, fine. destruct (e_check e) as [c|]; [|intros Q; injection Q as <-; split; [discriminate|split; [exists []; rewrite app_nil_r; reflexivity|auto]]].
  destruct (kept c (e_list e) vs) as [|v l] eqn:K; [discriminate|]. intros Q. injection Q as <-. unfold kept in K. split; [|split; [|discriminate]].
  - intros c' Q. injection Q as <-. destruct (e_list e); [rewrite <- K; apply good_prefix_fine|]. destruct vs as [|x vs]; [discriminate|]. destruct (c x) eqn:E; [|discriminate]. injection K as <- <-. intros y r Q. injection Q as <- _. exact E.
  - destruct (e_list e); [rewrite <- K; apply good_prefix_prefix|]. destruct vs as [|x vs]; [discriminate|]. destruct (c x) eqn:E; [|discriminate]. injection K as <- <-. exists vs. reflexivity.
Qed.
Lemma keptv_keeps e vs : vs <> [] -> fine e vs -> exists vs', keptv e vs = Some vs' /\ hd_error vs' = hd_error vs /\ (e_list e = true \/ e_check e = None -> vs' = vs).
Proof.
  intros N F. unfold keptv, fine in *. destruct (e_check e) as [c|]; [|exists vs; auto]. specialize (F c eq_refl). unfold kept. destruct (e_list e).
  - rewrite good_prefix_all by exact F. destruct vs as [|v vs]; [easy|]. eexists. split; [reflexivity|]. auto.
  - destruct vs as [|v vs]; [easy|]. rewrite (F v vs eq_refl). eexists. split; [reflexivity|]. split; [reflexivity|]. intros [Q|Q]; discriminate.
Qed.
Lemma keptv_twice e vs vs' : vs <> [] -> keptv e vs = Some vs' -> keptv e vs' = Some vs'.
Proof.
  intros N K. destruct (keptv_fine e vs vs' K) as (F & _ & N2). destruct (keptv_keeps e vs' (N2 N) F) as (v2 & E & H & L). rewrite E. f_equal.
  unfold keptv in K, E. destruct (e_check e) as [c|]; [|apply L; auto]. destruct (e_list e) eqn:EL; [apply L; auto|]. unfold kept in *. destruct vs as [|x vs]; [easy|]. destruct (c x) eqn:Ec; [|discriminate]. injection K as <-. rewrite Ec in E. injection E as <-. reflexivity.
Qed.

Section Clean.
Variables (sch : schema).
Hypothesis T : sch_text sch.
Hypothesis O1 : once sch.

Definition clean_entry (t key : bytes) (vs : svals) : option svals := clean1 (entries_for sch t key) vs.
Lemma clean_entry_fine t key vs vs' : text t -> text key -> clean_entry t key vs = Some vs' ->
  (forall e, about_entry sch t key e -> fine e vs') /\ (exists suf, vs = vs' ++ suf) /\ (vs <> [] -> vs' <> []).
Proof.
  intros Tt Tk. unfold clean_entry, clean1. pose proof (O1 t key Tt Tk) as L. fold (checked (entries_for sch t key)) in L.
  assert (forall e, about_entry sch t key e -> e_check e = None \/ In e (checked (entries_for sch t key))) as C.
  { intros e A. apply (in_entries sch t key e T Tt Tk) in A. destruct (e_check e) eqn:E; [|auto]. right. apply filter_In. rewrite E. auto. }
  destruct (checked (entries_for sch t key)) as [|e0 l].
  - intros Q. injection Q as <-. split; [|split; [exists []; rewrite app_nil_r; reflexivity|auto]]. intros e A. destruct (C e A) as [N|[]]. unfold fine. rewrite N. discriminate.
  - intros K. destruct (keptv_fine e0 vs vs' K) as (F & P & N). split; [|auto]. intros e A. destruct (C e A) as [Q|[<-|I0]]; [unfold fine; rewrite Q; discriminate|exact F|]. destruct l; [easy|cbn in L; lia].
Qed.
Lemma clean_entry_keeps t key vs : text t -> text key -> vs <> [] -> (forall e, about_entry sch t key e -> fine e vs) ->
  exists vs', clean_entry t key vs = Some vs' /\ hd_error vs' = hd_error vs /\ ((forall e, about_entry sch t key e -> e_list e = true \/ e_check e = None) -> vs' = vs).
Proof.
  intros Tt Tk N F. unfold clean_entry, clean1. destruct (checked (entries_for sch t key)) as [|e l] eqn:E; [exists vs; auto|].
  assert (In e (checked (entries_for sch t key))) as I0 by (rewrite E; left; reflexivity). apply filter_In in I0. destruct I0 as [I0 _]. apply (in_entries sch t key e T Tt Tk) in I0.
  destruct (keptv_keeps e vs N (F e I0)) as (vs' & K & H & L). exists vs'. split; [exact K|]. split; [exact H|]. intros A. apply L, A, I0.
Qed.
Lemma clean_entry_twice t key vs vs' : vs <> [] -> clean_entry t key vs = Some vs' -> clean_entry t key vs' = Some vs'.
Proof. unfold clean_entry, clean1. destruct (checked (entries_for sch t key)) as [|e l]; [intros _ Q; injection Q as <-; reflexivity|apply keptv_twice]. Qed.

Definition clean_es (t : bytes) (es : sentries) : sentries :=
  flat_map (fun q => match fst q with None => [] | Some k => match clean_entry t k (snd q) with None => [] | Some vs' => [(Some k, vs')] end end) es.
Definition est (es : sentries) : Prop := Forall (fun q => (exists k, fst q = Some k /\ text k) /\ snd q <> []) es.
Lemma est_clean t es : text t -> est es -> est (clean_es t es).
Proof.
  intros Tt F. induction F as [|[k vs] es ((k' & E & Tk) & N) F IH]; [constructor|]. cbn [fst snd] in *. subst k. cbn [clean_es flat_map fst snd]. destruct (clean_entry t k' vs) as [vs'|] eqn:C; [|exact IH].
  constructor; [|exact IH]. cbn [fst snd]. split; [eauto|]. apply (clean_entry_fine t k' vs vs' Tt Tk C), N.
Qed.
Lemma clean_es_twice t es : est es -> clean_es t (clean_es t es) = clean_es t es.
Proof.
  intros F. induction F as [|[k vs] es ((k' & E & Tk) & N) F IH]; [reflexivity|]. cbn [fst snd] in *. subst k. cbn [clean_es flat_map fst snd]. destruct (clean_entry t k' vs) as [vs'|] eqn:C; [|exact IH].
  cbn [app]. change (clean_es t ((Some k', vs') :: clean_es t es) = (Some k', vs') :: clean_es t es). cbn [clean_es flat_map fst snd]. rewrite (clean_entry_twice t k' vs vs' N C). cbn [app]. f_equal. exact IH.
Qed.
Lemma clean_es_in t es k vs' : In (Some k, vs') (clean_es t es) <-> exists vs, In (Some k, vs) es /\ clean_entry t k vs = Some vs'.
Proof.
  unfold clean_es. rewrite in_flat_map. split.
  - intros ([k0 vs] & I0 & H). cbn [fst snd] in H. destruct k0 as [k0|]; [|easy]. destruct (clean_entry t k0 vs) as [v2|] eqn:C; [|easy]. destruct H as [Q|[]]. injection Q as -> ->. eauto.
  - intros (vs & I0 & C). exists (Some k, vs). split; [exact I0|]. cbn [fst snd]. rewrite C. left; reflexivity.
Qed.
Lemma entries_clean ignore t es : text t -> est es -> forall err,
  exists e, check_entries sch true ignore t es err = Some (clean_es t es, e) /\ (e = false <-> err = false /\ Forall (entry_ok sch ignore t) es).
Proof.
  intros Tt F. induction F as [|[k vs] es ((k' & E & Tk) & N) F IH]; intros err; cbn [check_entries clean_es flat_map].
  - exists err. split; [reflexivity|]. split; [auto|tauto].
  - cbn [fst snd] in *. subst k. destruct (entry_plain sch ignore t k' vs N) as (w & EP & W). unfold check_entry in *. rewrite with_plain in EP by exact N. rewrite with_clean by exact (O1 t k' Tt Tk). injection EP as EP. cbn [orb] in EP. rewrite EP.
    destruct (IH (err || w)) as (e & -> & Q). exists e. split; [fold (clean_entry t k' vs); destruct (clean_entry t k' vs); reflexivity|].
    rewrite Q, Bool.orb_false_iff, W. split; [intros [[A B] C]; auto|intros [A B]]. split; [split; [exact A|exact (Forall_inv B)]|exact (Forall_inv_tail B)].
Qed.
Definition nst (ns : snames) : Prop := Forall (fun q => est (snd q)) ns.
Definition clean_ns (t : bytes) (s : ssection) (ns : snames) : snames :=
  flat_map (fun q => if name_bad s (fst q) then [] else [(fst q, clean_es t (snd q))]) ns.
Lemma names_clean s ignore t ns : text t -> nst ns -> forall err,
  exists e, check_names sch s true ignore t ns err = Some (clean_ns t s ns, e) /\
  (e = false -> err = false /\ Forall (fun q => name_bad s (fst q) = false /\ Forall (entry_ok sch ignore t) (snd q)) ns).
Proof.
  intros Tt F. induction F as [|[n es] ns G F IH]; intros err; cbn [check_names clean_ns flat_map].
  - exists err. split; [reflexivity|]. auto.
  - cbn [fst snd] in *. fold (name_bad s n). destruct (name_bad s n) eqn:B.
    + destruct (IH true) as (e & -> & Q). exists e. split; [reflexivity|]. intros X. destruct (Q X). discriminate.
    + destruct (entries_clean ignore t es Tt G err) as (e1 & -> & E1). set (e2 := if e1 then true else _). destruct (IH e2) as (e & -> & Q). exists e. split; [reflexivity|]. intros X. destruct (Q X) as [Q1 Q2].
      assert (e1 = false) as Z1 by (unfold e2 in Q1; destruct e1; [discriminate|reflexivity]). apply E1 in Z1. destruct Z1 as [A1 A2]. split; [exact A1|]. constructor; auto.
Qed.
Lemma nst_clean t s ns : text t -> nst ns -> nst (clean_ns t s ns).
Proof. intros Tt F. induction F as [|[n es] ns G F IH]; [constructor|]. cbn [clean_ns flat_map fst snd]. destruct (name_bad s n); [exact IH|]. constructor; [apply est_clean; auto|exact IH]. Qed.
Lemma clean_ns_in t s ns n es' : In (n, es') (clean_ns t s ns) <-> exists es, In (n, es) ns /\ name_bad s n = false /\ es' = clean_es t es.
Proof.
  unfold clean_ns. rewrite in_flat_map. split.
  - intros ([m es] & I0 & H). cbn [fst snd] in H. destruct (name_bad s m) eqn:B; [easy|]. destruct H as [Q|[]]. injection Q as -> <-. eauto.
  - intros (es & I0 & B & ->). exists (n, es). split; [exact I0|]. cbn [fst snd]. rewrite B. left; reflexivity.
Qed.
Definition clean_all (t : bytes) (ss : list ssection) (ns : snames) : snames := fold_left (fun ns s => clean_ns t s ns) ss ns.
Lemma sections_clean ignore t ss : text t -> forall ns err, nst ns ->
  exists e, check_sections sch ss true ignore t ns err = Some (clean_all t ss ns, e) /\
  (e = false -> err = false /\ Forall (fun q => Forall (fun s => name_bad s (fst q) = false) ss /\ (ss <> [] -> Forall (entry_ok sch ignore t) (snd q))) ns).
Proof.
  intros Tt. induction ss as [|s ss IH]; intros ns err F; cbn [check_sections clean_all fold_left].
  - exists err. split; [reflexivity|]. intros ->. split; [reflexivity|]. apply Forall_forall. intros q _. split; [constructor|easy].
  - destruct (names_clean s ignore t ns Tt F err) as (e1 & -> & E1). destruct (IH (clean_ns t s ns) e1 (nst_clean t s ns Tt F)) as (e & -> & Q). exists e. split; [reflexivity|]. intros X. destruct (Q X) as [Q1 Q2]. destruct (E1 Q1) as [A1 A2]. split; [exact A1|].
    rewrite Forall_forall in *. intros [n es] I0. specialize (A2 _ I0). destruct A2 as [A2 A3]. cbn [fst snd] in *. split; [|intros _; exact A3]. constructor; [exact A2|].
    assert (In (n, clean_es t es) (clean_ns t s ns)) as I1 by (apply clean_ns_in; eauto). specialize (Q2 _ I1). exact (proj1 Q2).
Qed.
Lemma clean_all_in t ss : text t -> forall ns, nst ns -> ss <> [] -> forall n es',
  In (n, es') (clean_all t ss ns) <-> exists es, In (n, es) ns /\ Forall (fun s => name_bad s n = false) ss /\ es' = clean_es t es.
Proof.
  intros Tt. induction ss as [|s ss IH]; intros ns F N n es'; [easy|]. cbn [clean_all fold_left]. destruct ss as [|s2 ss].
  - cbn [fold_left]. rewrite clean_ns_in. split; intros (es & I0 & B & E); exists es; (split; [exact I0|split; [|exact E]]); [constructor; auto|exact (Forall_inv B)].
  - rewrite (IH (clean_ns t s ns) (nst_clean t s ns Tt F) ltac:(discriminate)). split.
    + intros (es1 & I1 & B & E). apply clean_ns_in in I1. destruct I1 as (es & I0 & B0 & ->). exists es. split; [exact I0|]. split; [constructor; auto|]. rewrite E. apply clean_es_twice.
      unfold nst in F. rewrite Forall_forall in F. exact (F _ I0).
    + intros (es & I0 & B & E). exists (clean_es t es). split; [apply clean_ns_in; exists es; split; [exact I0|split; [exact (Forall_inv B)|reflexivity]]|]. split; [exact (Forall_inv_tail B)|]. rewrite E. symmetry. apply clean_es_twice.
      unfold nst in F. rewrite Forall_forall in F. exact (F _ I0).
Qed.
Definition clean_db (ignore : bool) (db : sdb) : sdb :=
  flat_map (fun q => match fst q with None => [] | Some t =>
    match sections_for sch t with
    | [] => if ignore then [q] else []
    | ss => match clean_all t ss (snd q) with [] => [] | ns' => [(Some t, ns')] end
    end end) db.
Definition dbt (db : sdb) : Prop := Forall (fun q => (exists t, fst q = Some t /\ text t) /\ nst (snd q)) db.
Definition found_nothing (ignore : bool) (q : option bytes * snames) : Prop :=
  forall t, fst q = Some t -> (ignore = true \/ sections_for sch t <> []) /\
  (sections_for sch t <> [] -> Forall (fun r => Forall (fun s => name_bad s (fst r) = false) (sections_for sch t) /\ Forall (entry_ok sch ignore t) (snd r)) (snd q)).
Lemma types_clean ignore db : dbt db -> forall err,
  exists e, check_types sch true ignore db err = Some (clean_db ignore db, e) /\ (e = false -> err = false /\ Forall (found_nothing ignore) db).
Proof.
  intros F. induction F as [|[t ns] db ((t' & E & Tt) & G) F IH]; intros err; cbn [check_types clean_db flat_map].
  - exists err. split; [reflexivity|]. auto.
  - cbn [fst snd] in *. subst t. destruct (sections_for sch t') as [|s ss] eqn:E.
    + destruct (IH (if ignore then err else true)) as (e & -> & Q). exists e. split; [destruct ignore; reflexivity|]. intros X. destruct (Q X) as [Q1 Q2]. destruct ignore; [|discriminate]. split; [exact Q1|]. constructor; [|exact Q2].
      intros t0 Q0. injection Q0 as <-. split; [auto|]. rewrite E. easy.
    + destruct (sections_clean ignore t' (s :: ss) Tt ns err G) as (e1 & -> & E1). destruct (IH e1) as (e & -> & Q). exists e. split; [fold (clean_db ignore db); destruct (clean_all t' (s :: ss) ns); reflexivity|]. intros X. destruct (Q X) as [Q1 Q2]. destruct (E1 Q1) as [A1 A2].
      split; [exact A1|]. constructor; [|exact Q2]. intros t0 Q0. injection Q0 as <-. rewrite E. split; [right; discriminate|]. intros _. rewrite Forall_forall in *. intros r I0. destruct (A2 r I0) as [B1 B2]. split; [exact B1|]. apply B2. discriminate.
Qed.
Lemma clean_db_in ignore db t ns' : In (Some t, ns') (clean_db ignore db) <->
  exists ns, In (Some t, ns) db /\ match sections_for sch t with [] => ignore = true /\ ns' = ns | ss => ns' = clean_all t ss ns /\ ns' <> [] end.
Proof.
  unfold clean_db. rewrite in_flat_map. split.
  - intros ([t0 ns] & I0 & H). cbn [fst snd] in H. destruct t0 as [t0|]; [|easy]. destruct (sections_for sch t0) as [|s ss] eqn:E.
    + destruct ignore; [|easy]. destruct H as [Q|[]]. injection Q as -> ->. exists ns'. rewrite E. auto.
    + destruct (clean_all t0 (s :: ss) ns) as [|q l] eqn:C; [easy|]. destruct H as [Q|[]]. injection Q as -> <-. exists ns. rewrite E. split; [exact I0|]. split; [symmetry; exact C|discriminate].
  - intros (ns & I0 & H). exists (Some t, ns). split; [exact I0|]. cbn [fst snd]. destruct (sections_for sch t) as [|s ss].
    + destruct H as [-> ->]. left; reflexivity.
    + destruct H as [-> N]. destruct (clean_all t (s :: ss) ns); [easy|left; reflexivity].
Qed.
Lemma swf_dbt db : swf db -> dbt db.
Proof.
  intros W. apply Forall_forall. intros [t ns] I0. destruct (type_text db W t ns I0) as (x & -> & Tx & O). split; [cbn; eauto|]. cbn [snd]. apply Forall_forall. intros [n es] I1. cbn [snd]. destruct (okt_key _ _ _ _ _ O I1) as [_ O2].
  apply Forall_forall. intros [k vs] I2. destruct (okt_key _ _ _ _ _ O2 I2) as [K P]. cbn. destruct k as [k|]; [split; [eauto|exact P]|cbn in K; discriminate].
Qed.
End Clean.

Section Cleaned.
Variables (sch : schema) (ignore : bool) (db : sdb).
Hypothesis T : sch_text sch.
Hypothesis O1 : once sch.
Hypothesis W : swf db.
Let db' := clean_db sch ignore db.

Lemma ns_nst t ns : In (Some t, ns) db -> text t /\ nst ns.
Proof. intros I0. pose proof (swf_dbt db W) as F. unfold dbt in F. rewrite Forall_forall in F. destruct (F _ I0) as ((x & Q & Tx) & N). cbn in Q. injection Q as <-. auto. Qed.
Lemma cleaned_section t n es' : section_in db' t n es' <-> exists es, section_in db t n es /\
  match sections_for sch t with [] => ignore = true /\ es' = es | ss => Forall (fun s => name_bad s n = false) ss /\ es' = clean_es sch t es end.
Proof.
  unfold section_in, db'. split.
  - intros (ns' & I0 & I1). apply clean_db_in in I0. destruct I0 as (ns & I0 & H). destruct (ns_nst t ns I0) as [Tt N]. destruct (sections_for sch t) as [|s ss] eqn:E.
    + destruct H as [-> ->]. exists es'. split; [exists ns; auto|auto].
    + destruct H as [-> _]. apply (clean_all_in sch T O1 t (s :: ss) Tt ns N ltac:(discriminate)) in I1. destruct I1 as (es & I1 & B & ->). exists es. split; [exists ns; auto|auto].
  - intros (es & (ns & I0 & I1) & H). destruct (ns_nst t ns I0) as [Tt N]. destruct (sections_for sch t) as [|s ss] eqn:E.
    + destruct H as [Q ->]. exists ns. split; [|exact I1]. apply clean_db_in. exists ns. rewrite E. auto.
    + destruct H as [B ->]. exists (clean_all sch t (s :: ss) ns).
      assert (In (n, clean_es sch t es) (clean_all sch t (s :: ss) ns)) as I2 by (apply (clean_all_in sch T O1 t (s :: ss) Tt ns N ltac:(discriminate)); eauto).
      split; [|exact I2]. apply clean_db_in. exists ns. rewrite E. split; [exact I0|]. split; [reflexivity|]. intros Q. rewrite Q in I2. destruct I2.
Qed.
Lemma cleaned_entry t n k vs' : entry_in db' t n k vs' -> exists vs, entry_in db t n k vs /\
  match sections_for sch t with [] => vs' = vs | ss => Forall (fun s => name_bad s n = false) ss /\ clean_entry sch t k vs = Some vs' end.
Proof.
  intros (es' & SI & I0). apply cleaned_section in SI. destruct SI as (es & SI & H). destruct (sections_for sch t) as [|s ss].
  - destruct H as [_ ->]. exists vs'. split; [exists es; auto|reflexivity].
  - destruct H as [B ->]. apply clean_es_in in I0. destruct I0 as (vs & I0 & C). exists vs. split; [exists es; auto|auto].
Qed.
Lemma cleaned : exists r, validate sch true ignore db = Some (db', r) /\ (r = 0 \/ r = -1) /\
  (r = 0 -> (ignore = true \/ types_known sch db /\ entries_known sch db) /\ names_fine sch db /\ values_fine sch db).
Proof.
  unfold validate. destruct (types_clean sch T O1 ignore db (swf_dbt db W) false) as (e & -> & E). eexists. split; [reflexivity|]. split; [destruct (e || _ || _); auto|].
  intros Z0. assert (e = false) as E0. { destruct e; [discriminate|reflexivity]. } destruct (E E0) as [_ F]. rewrite Forall_forall in F.
  assert (forall t n es s, section_in db t n es -> about sch t s -> name_bad s n = false /\ Forall (entry_ok sch ignore t) es) as SO.
  { intros t n es s (ns & I0 & I1) A. destruct (ns_nst t ns I0) as [Tt _]. destruct (F _ I0 t eq_refl) as [_ G]. apply (in_sections sch t s T Tt) in A. cbn [snd] in G.
    assert (sections_for sch t <> []) as N by (destruct (sections_for sch t); [easy|discriminate]). specialize (G N). rewrite Forall_forall in G. destruct (G _ I1) as [G1 G2]. cbn [fst snd] in *. rewrite Forall_forall in G1. split; [exact (G1 s A)|exact G2]. }
  split; [|split].
  - destruct ignore eqn:IG; [auto|]. right. split.
    + intros t ns I0. destruct (ns_nst t ns I0) as [Tt _]. destruct (F _ I0 t eq_refl) as [[Q|Q] _]; [discriminate|]. destruct (sections_for sch t) as [|s l] eqn:Es; [congruence|]. exists s. apply in_sections; auto. rewrite Es. left; reflexivity.
    + intros t n key vs (s & A) EI. destruct (entry_text db W _ _ _ _ EI) as (Tt & Tk & _). destruct EI as (es & SI & I0). destruct (SO t n es s SI A) as (_ & G). rewrite Forall_forall in G. specialize (G _ I0).
      destruct G as [[?|N] _]; [discriminate|]. destruct (entries_for sch t key) as [|e0 l] eqn:Ee; [congruence|]. exists e0. apply in_entries; auto. rewrite Ee. left; reflexivity.
  - intros t n es s SI A. apply name_bad_iff. exact (proj1 (SO t (Some n) es s SI A)).
  - intros t n key vs e0 EI AE. destruct (entry_text db W _ _ _ _ EI) as (Tt & Tk & _). destruct EI as (es & SI & I0). pose proof AE as (s & A & _). destruct (SO t n es s SI A) as (_ & G). rewrite Forall_forall in G. specialize (G _ I0).
    destruct G as [_ G]. cbn [snd] in G. rewrite Forall_forall in G. apply G. apply in_entries; auto.
Qed.
Lemma cleaned_names : names_fine sch db'.
Proof.
  intros t n es' s SI A. apply cleaned_section in SI. destruct SI as (es & SI & H). destruct (section_text db W _ _ _ SI) as (Tt & _). apply (in_sections sch t s T Tt) in A. destruct (sections_for sch t) as [|s0 ss]; [easy|].
  destruct H as [B _]. rewrite Forall_forall in B. apply name_bad_iff. exact (B s A).
Qed.
Lemma cleaned_values : values_fine sch db'.
Proof.
  intros t n key vs' e EI AE. apply cleaned_entry in EI. destruct EI as (vs & EI & H). destruct (entry_text db W _ _ _ _ EI) as (Tt & Tk & _). pose proof AE as (s & A & _). apply (in_sections sch t s T Tt) in A. destruct (sections_for sch t) as [|s0 ss]; [easy|].
  destruct H as [_ C]. apply (clean_entry_fine sch T O1 t key vs vs' Tt Tk C), AE.
Qed.
Lemma cleaned_types : ignore = true \/ types_known sch db'.
Proof.
  destruct ignore eqn:IG; [auto|]. right. intros t ns' I0. unfold db' in I0. apply clean_db_in in I0. destruct I0 as (ns & I0 & H). destruct (ns_nst t ns I0) as [Tt _]. destruct (sections_for sch t) as [|s ss] eqn:E; [destruct H; discriminate|]. exists s. apply in_sections; auto. rewrite E. left; reflexivity.
Qed.
Lemma cleaned_old t n key vs' : entry_in db' t n key vs' -> exists vs, entry_in db t n key vs /\ exists suf, vs = vs' ++ suf.
Proof.
  intros EI. apply cleaned_entry in EI. destruct EI as (vs & EI & H). exists vs. split; [exact EI|]. destruct (entry_text db W _ _ _ _ EI) as (Tt & Tk & _). destruct (sections_for sch t) as [|s ss]; [exists []; rewrite app_nil_r; auto|].
  destruct H as [_ C]. apply (clean_entry_fine sch T O1 t key vs vs' Tt Tk C).
Qed.
Lemma cleaned_keeps t n es key vs : section_in db t n es -> In (Some key, vs) es -> ignore = true \/ (exists s, about sch t s) ->
  (forall s x, about sch t s -> n = Some x -> s_mode s <> Unnamed /\ ~ In 32 x) -> (forall e, about_entry sch t key e -> fine e vs) ->
  exists vs', entry_in db' t n key vs' /\ hd_error vs' = hd_error vs /\ ((forall e, about_entry sch t key e -> e_list e = true \/ e_check e = None) -> vs' = vs).
Proof.
  intros SI I0 K NF VF. destruct (section_text db W _ _ _ SI) as (Tt & _). destruct (entry_text db W t n key vs (ex_intro _ es (conj SI I0))) as (_ & Tk & NE).
  assert (forall s, In s (sections_for sch t) -> name_bad s n = false) as NB.
  { intros s A. destruct n as [x|]; [|reflexivity]. apply name_bad_iff. apply NF; auto. apply in_sections in A; auto. }
  destruct (sections_for sch t) as [|s0 ss] eqn:E.
  - destruct K as [K|(s & A)]; [|apply (in_sections sch t s T Tt) in A; rewrite E in A; easy]. exists vs. split; [|auto]. exists es. split; [|exact I0]. apply cleaned_section. exists es. rewrite E. auto.
  - destruct (clean_entry_keeps sch T t key vs Tt Tk NE VF) as (vs' & C & H & L). exists vs'. split; [|auto]. exists (clean_es sch t es). split; [apply cleaned_section; exists es; rewrite E; split; [exact SI|split; [apply Forall_forall; exact NB|reflexivity]]|].
    apply clean_es_in. eauto.
Qed.
End Cleaned.
