(** Validation (C100, C101). *)
From Verif Require Import Base BitsModel StrBase CompModel StringModel CfgModel CfgSpec CfgTree SchemaModel SchemaSpec.

Lemma keq_same a b : text a -> text b -> keq a b = same b a.
Proof. intros A B. unfold keq. rewrite kcmp_same by (cbn; auto). cbn [same_name]. apply same_sym. Qed.
Lemma in_sections sch t s : sch_text sch -> text t -> (In s (sections_for sch t) <-> about sch t s).
Proof.
  intros T Tt. unfold sections_for, about. rewrite filter_In. split; intros [I0 E]; (split; [exact I0|]); rewrite keq_same in *; auto; apply (T s I0).
Qed.
Lemma in_entries sch t key e : sch_text sch -> text t -> text key -> (In e (entries_for sch t key) <-> about_entry sch t key e).
Proof.
  intros T Tt Tk. unfold entries_for, about_entry. rewrite in_flat_map. split.
  - intros (s & I0 & H). destruct (T s I0) as (T1 & _ & T2). rewrite keq_same in H by auto. destruct (same (s_type s) t) eqn:E; [|easy].
    apply filter_In in H. destruct H as [I1 H]. rewrite keq_same in H by auto. exists s. split; [split; auto|auto].
  - intros (s & (I0 & E) & I1 & H). exists s. split; [exact I0|]. destruct (T s I0) as (T1 & _ & T2). rewrite keq_same, E by auto. apply filter_In. split; [exact I1|].
    rewrite keq_same; auto.
Qed.

(** ** The loop over values *)
Definition badv (check : bytes -> bool) (l : bool) (vs : svals) : bool :=
  if l then existsb (fun v => negb (check v)) vs else match vs with [] => false | v :: _ => negb (check v) end.
Fixpoint good_prefix (check : bytes -> bool) (vs : svals) : svals :=
  match vs with [] => [] | v :: r => if check v then v :: good_prefix check r else [] end.
Definition kept (check : bytes -> bool) (l : bool) (vs : svals) : svals :=
  if l then good_prefix check vs else match vs with [] => [] | v :: _ => if check v then [v] else [] end.
Lemma loop_dr check l w vs c : value_loop check l c true w vs = (if c then [] else vs, w).
Proof.
  revert w. induction vs as [|v vs IH]; intros w; cbn [value_loop]; [destruct c; reflexivity|]. cbn [negb andb orb]. rewrite Bool.orb_false_r, IH, Bool.orb_true_r. destruct c; reflexivity.
Qed.
Lemma loop_plain check l w vs : value_loop check l false false w vs = (vs, w || badv check l vs).
Proof.
  destruct l.
  - revert w. induction vs as [|v vs IH]; intros w; cbn [value_loop badv existsb]; [rewrite Bool.orb_false_r; reflexivity|]. cbn [negb andb orb]. rewrite IH, Bool.andb_false_r. cbn [badv]. rewrite Bool.orb_assoc. reflexivity.
  - destruct vs as [|v vs]; cbn [value_loop badv]; [rewrite Bool.orb_false_r; reflexivity|]. cbn [negb andb orb]. rewrite loop_dr, Bool.andb_false_r. reflexivity.
Qed.
Lemma loop_all check vs : value_loop check true true false true vs = ([], true).
Proof. induction vs as [|v vs IH]; cbn [value_loop]; [reflexivity|]. cbn [negb andb orb]. rewrite IH. reflexivity. Qed.
Lemma loop_clean check l vs : value_loop check l true false false vs = (kept check l vs, badv check l vs).
Proof.
  destruct l.
  - unfold kept, badv. induction vs as [|v vs IH]; cbn [value_loop existsb good_prefix]; [reflexivity|]. cbn [negb andb orb]. destruct (check v); cbn [negb orb andb].
    + rewrite IH. reflexivity.
    + rewrite loop_all. reflexivity.
  - destruct vs as [|v vs]; cbn [value_loop kept badv]; [reflexivity|]. cbn [negb andb orb]. rewrite loop_dr. destruct (check v); reflexivity.
Qed.
Definition bade (e : sentry) (vs : svals) : bool := match e_check e with None => false | Some c => badv c (e_list e) vs end.
Lemma bade_fine e vs : bade e vs = false <-> fine e vs.
Proof.
  unfold bade, fine, badv. destruct (e_check e) as [c|]; [|split; [discriminate|reflexivity]]. split.
  - intros H c' Q. injection Q as <-. destruct (e_list e).
    + apply Forall_forall. intros v I0. destruct (c v) eqn:E; [reflexivity|]. exfalso. assert (existsb (fun v => negb (c v)) vs = true) as X by (apply existsb_exists; exists v; rewrite E; auto). congruence.
    + intros v r ->. destruct (c v); [reflexivity|discriminate].
  - intros H. specialize (H c eq_refl). destruct (e_list e).
    + rewrite Forall_forall in H. destruct (existsb (fun v => negb (c v)) vs) eqn:E; [|reflexivity]. apply existsb_exists in E. destruct E as (v & I0 & Q). rewrite (H v I0) in Q. discriminate.
    + destruct vs as [|v r]; [reflexivity|]. rewrite (H v r eq_refl). reflexivity.
Qed.

(** ** Validation without cleanup *)
Lemma with_plain ses vs w : vs <> [] -> check_with ses false (Some vs) w = Some (Some vs, w || existsb (fun e => bade e vs) ses).
Proof.
  intros N. revert w. induction ses as [|e ses IH]; intros w; cbn [check_with existsb]; [rewrite Bool.orb_false_r; reflexivity|]. unfold bade at 1. destruct (e_check e) as [c|].
  - rewrite loop_plain. destruct vs as [|v vs]; [easy|]. rewrite IH, Bool.orb_assoc. reflexivity.
  - rewrite IH. cbn [orb]. reflexivity.
Qed.
Definition entry_ok (sch : schema) (ignore : bool) (type : bytes) (q : option bytes * svals) : Prop :=
  match fst q with None => False | Some key => (ignore = true \/ entries_for sch type key <> []) /\ Forall (fun e => fine e (snd q)) (entries_for sch type key) end.
Lemma entry_plain sch ignore type key vs : vs <> [] ->
  exists w, check_entry sch false ignore type key vs = Some (Some vs, w) /\ (w = false <-> entry_ok sch ignore type (Some key, vs)).
Proof.
  intros N. unfold check_entry. rewrite with_plain by exact N. eexists. split; [reflexivity|]. unfold entry_ok. cbn [fst snd orb].
  assert (existsb (fun e => bade e vs) (entries_for sch type key) = false <-> Forall (fun e => fine e vs) (entries_for sch type key)) as B.
  { generalize (entries_for sch type key). intros l. induction l as [|e l IH]; [split; [constructor|reflexivity]|]. cbn [existsb]. rewrite Bool.orb_false_iff, IH, bade_fine. split.
    - intros [A B]. constructor; auto.
    - intros F. split; [exact (Forall_inv F)|exact (Forall_inv_tail F)]. }
  destruct (entries_for sch type key) as [|e l] eqn:E.
  - cbn [existsb] in *. destruct ignore; split; auto; try (intros [[?|?] _]; congruence).
  - rewrite B. split; [intros F; split; [right; discriminate|exact F]|tauto].
Qed.
Lemma entries_plain sch ignore type es : Forall (fun q => fst q <> None /\ snd q <> []) es -> forall err,
  exists e, check_entries sch false ignore type es err = Some (es, e) /\ (e = false <-> err = false /\ Forall (entry_ok sch ignore type) es).
Proof.
  induction es as [|[[key|] vs] es IH]; intros F err; cbn [check_entries].
  - exists err. split; [reflexivity|]. split; [auto|tauto].
  - destruct (Forall_inv F) as [_ N]. cbn [snd] in N. destruct (entry_plain sch ignore type key vs N) as (w & -> & W). destruct (IH (Forall_inv_tail F) (err || w)) as (e & -> & E).
    exists e. split; [reflexivity|]. rewrite E, Bool.orb_false_iff, W. split; [intros [[A B] C]; auto|intros [A B]]. split; [split; [exact A|exact (Forall_inv B)]|exact (Forall_inv_tail B)].
  - destruct (Forall_inv F) as [N _]. cbn in N. congruence.
Qed.
Definition name_bad (s : ssection) (n : option bytes) : bool :=
  match n with None => false | Some x => negb (is_named_mode (s_mode s)) || negb (allowed_name x) end.
Definition section_ok (sch : schema) (ignore : bool) (type : bytes) (s : ssection) (q : option bytes * sentries) : Prop :=
  name_bad s (fst q) = false /\ Forall (entry_ok sch ignore type) (snd q) /\ (forall f, s_check s = Some f -> f (fst q) (snd q) = true).
Definition esok (es : sentries) : Prop := Forall (fun q => fst q <> None /\ snd q <> []) es.
Lemma names_plain sch s ignore type ns : Forall (fun q => esok (snd q)) ns -> forall err,
  exists e, check_names sch s false ignore type ns err = Some (ns, e) /\ (e = false <-> err = false /\ Forall (section_ok sch ignore type s) ns).
Proof.
  induction ns as [|[n es] ns IH]; intros F err; cbn [check_names].
  - exists err. split; [reflexivity|]. split; [auto|tauto].
  - fold (name_bad s n). destruct (name_bad s n) eqn:B.
    + destruct (IH (Forall_inv_tail F) true) as (e & -> & E). exists e. split; [reflexivity|]. split; [intros Q; apply E in Q; destruct Q; discriminate|].
      intros [_ G]. pose proof (Forall_inv G) as (G1 & _). cbn in G1. congruence.
    + destruct (entries_plain sch ignore type es (Forall_inv F) err) as (e1 & -> & E1). set (e2 := if e1 then true else _).
      destruct (IH (Forall_inv_tail F) e2) as (e & -> & E). exists e. split; [reflexivity|]. rewrite E. unfold e2. clear E. destruct e1.
      * split; [intros [Q _]; discriminate|]. intros [Q G]. pose proof (Forall_inv G) as (_ & G1 & _). cbn [snd] in G1. assert (true = false) by (apply E1; auto). discriminate.
      * destruct (proj1 E1 eq_refl) as [A1 A2]. split.
        -- intros [Q G]. split; [exact A1|]. constructor; [|exact G]. split; [exact B|]. split; [exact A2|]. intros f FE. rewrite FE in Q. cbn [fst snd]. destruct (f n es); [reflexivity|discriminate].
        -- intros [_ G]. split; [|exact (Forall_inv_tail G)]. pose proof (Forall_inv G) as (_ & _ & G3). cbn [fst snd] in G3. destruct (s_check s) as [f|]; [|reflexivity]. rewrite (G3 f eq_refl). reflexivity.
Qed.
Lemma sections_plain sch ignore type ns ss : Forall (fun q => esok (snd q)) ns -> forall err,
  exists e, check_sections sch ss false ignore type ns err = Some (ns, e) /\ (e = false <-> err = false /\ Forall (fun s => Forall (section_ok sch ignore type s) ns) ss).
Proof.
  intros F. induction ss as [|s ss IH]; intros err; cbn [check_sections].
  - exists err. split; [reflexivity|]. split; [auto|tauto].
  - destruct (names_plain sch s ignore type ns F err) as (e1 & -> & E1). destruct (IH e1) as (e & -> & E). exists e. split; [reflexivity|]. rewrite E, E1. split.
    + intros [[A B] C]. auto.
    + intros [A G]. split; [split; [exact A|exact (Forall_inv G)]|exact (Forall_inv_tail G)].
Qed.
Definition type_ok (sch : schema) (ignore : bool) (q : option bytes * snames) : Prop :=
  match fst q with None => False | Some t => (ignore = true \/ sections_for sch t <> []) /\ Forall (fun s => Forall (section_ok sch ignore t s) (snd q)) (sections_for sch t) end.
Definition nsok (ns : snames) : Prop := Forall (fun q => esok (snd q)) ns.
Lemma types_plain sch ignore db : Forall (fun q => fst q <> None /\ nsok (snd q)) db -> forall err,
  exists e, check_types sch false ignore db err = Some (db, e) /\ (e = false <-> err = false /\ Forall (type_ok sch ignore) db).
Proof.
  induction db as [|[[t|] ns] db IH]; intros F err; cbn [check_types].
  - exists err. split; [reflexivity|]. split; [auto|tauto].
  - destruct (Forall_inv F) as [_ N]. cbn [snd] in N. destruct (sections_for sch t) as [|s ss] eqn:E.
    + destruct (IH (Forall_inv_tail F) (if ignore then err else true)) as (e & -> & H). exists e. rewrite Bool.andb_false_r. split; [reflexivity|]. rewrite H. split.
      * intros [A B]. destruct ignore; [|discriminate]. split; [exact A|]. constructor; [|exact B]. unfold type_ok. cbn [fst snd]. rewrite E. split; [auto|constructor].
      * intros [A B]. split; [|exact (Forall_inv_tail B)]. pose proof (Forall_inv B) as Q. unfold type_ok in Q. cbn [fst snd] in Q. rewrite E in Q. destruct Q as [[-> | Q] _]; [exact A|congruence].
    + destruct (sections_plain sch ignore t ns (s :: ss) N err) as (e1 & -> & E1). destruct (IH (Forall_inv_tail F) e1) as (e & -> & H). exists e. split; [destruct ns; reflexivity|]. rewrite H, E1. split.
      * intros [[A B] C]. split; [exact A|]. constructor; [|exact C]. unfold type_ok. cbn [fst snd]. rewrite E. split; [right; discriminate|exact B].
      * intros [A G]. pose proof (Forall_inv G) as Q. unfold type_ok in Q. cbn [fst snd] in Q. rewrite E in Q. split; [split; [exact A|apply Q]|exact (Forall_inv_tail G)].
  - destruct (Forall_inv F) as [N _]. cbn in N. congruence.
Qed.

(** ** Trees *)
Lemma okt_in {A} nn (P : A -> Prop) l k x : okt nn P l -> In (k, x) l -> t_find l k = Some x.
Proof.
  induction l as [|[k' y] l IH]; intros O I0; [easy|]. cbn [okt t_find] in *. destruct O as (K & Py & F & O). destruct I0 as [Q|I0].
  - injection Q as -> ->. rewrite kcmp_same by (destruct k; cbn in *; auto). rewrite same_name_refl. reflexivity.
  - rewrite Forall_forall in F. specialize (F _ I0). cbn [fst] in F. rewrite kcmp_anti in F. destruct (Z.eqb_spec (kcmp k k') 0); [lia|]. apply IH; auto.
Qed.
Lemma okt_find {A} nn (P : A -> Prop) l k x : okt nn P l -> text_name k -> t_find l k = Some x -> exists k', same_name k k' = true /\ In (k', x) l.
Proof.
  induction l as [|[k' y] l IH]; intros O T E; [discriminate|]. cbn [okt t_find] in *. destruct O as (K & Py & F & O). rewrite kcmp_same in E by (destruct k'; cbn in *; auto).
  destruct (same_name k k') eqn:S; [injection E as ->; exists k'; split; [exact S|left; reflexivity]|]. destruct (IH O T E) as (k2 & S2 & I0). exists k2. split; [exact S2|right; exact I0].
Qed.
Lemma okt_key {A} nn (P : A -> Prop) l k x : okt nn P l -> In (k, x) l -> okkey nn k /\ P x.
Proof. intros O I0. pose proof (okt_keys nn P l O) as F. rewrite Forall_forall in F. exact (F _ I0). Qed.
Lemma okt_find_same {A} nn (P : A -> Prop) l k k' x : okt nn P l -> text_name k -> In (k', x) l -> same_name k k' = true -> t_find l k = Some x.
Proof.
  intros O T I0 S. pose proof (okt_in nn P l k' x O I0) as E. rewrite <- E. apply (find_same nn P); auto. destruct (okt_key nn P l k' x O I0) as [K _]. exact (okkey_text nn k' K).
Qed.

Section Plain.
Variables (sch : schema) (db : sdb).
Hypothesis T : sch_text sch.
Hypothesis W : swf db.

Lemma type_text t ns : In (t, ns) db -> exists x, t = Some x /\ text x /\ okt false (okt true (fun vs : svals => vs <> [])) ns.
Proof. intros I0. destruct (okt_key _ _ _ _ _ W I0) as [K P]. destruct t as [x|]; cbn in K; [eauto|discriminate]. Qed.
Lemma db_shape : Forall (fun q => fst q <> None /\ nsok (snd q)) db.
Proof.
  apply Forall_forall. intros [t ns] I0. destruct (type_text t ns I0) as (x & -> & _ & O). split; [discriminate|]. cbn [snd]. apply Forall_forall. intros [n es] I1.
  destruct (okt_key _ _ _ _ _ O I1) as [_ O2]. cbn [snd]. apply Forall_forall. intros [k vs] I2. destruct (okt_key _ _ _ _ _ O2 I2) as [K P]. cbn. destruct k; [split; [discriminate|exact P]|cbn in K; discriminate].
Qed.
Lemma section_text t n es : section_in db t n es -> text t /\ text_name n /\ okt true (fun vs : svals => vs <> []) es.
Proof.
  intros (ns & I0 & I1). destruct (type_text _ _ I0) as (x & Q & Tx & O). injection Q as <-. destruct (okt_key _ _ _ _ _ O I1) as [K P]. split; [exact Tx|]. split; [exact (okkey_text _ _ K)|exact P].
Qed.
Lemma entry_text t n key vs : entry_in db t n key vs -> text t /\ text key /\ vs <> [].
Proof.
  intros (es & S0 & I0). destruct (section_text _ _ _ S0) as (A & _ & O). destruct (okt_key _ _ _ _ _ O I0) as [K P]. cbn in K. auto.
Qed.
Lemma allowed_iff n : allowed_name n = true <-> ~ In 32 n.
Proof.
  unfold allowed_name. rewrite Bool.negb_true_iff. split.
  - intros H I0. assert (existsb (fun c => c =? 32) n = true) as X by (apply existsb_exists; exists 32; auto). congruence.
  - intros N. destruct (existsb (fun c => c =? 32) n) eqn:E; [|reflexivity]. apply existsb_exists in E. destruct E as (c & I0 & Q). apply Z.eqb_eq in Q. subst. contradiction.
Qed.
Lemma name_bad_iff s n : name_bad s (Some n) = false <-> s_mode s <> Unnamed /\ ~ In 32 n.
Proof.
  unfold name_bad. rewrite Bool.orb_false_iff, !Bool.negb_false_iff, allowed_iff. destruct (s_mode s); cbn; split; intros [A B]; (split; [congruence|exact B]).
Qed.
(** the checks of the first part *)
Lemma first_part ignore : Forall (type_ok sch ignore) db <->
  (ignore = true \/ types_known sch db /\ entries_known sch db) /\ names_fine sch db /\ values_fine sch db /\ sections_fine sch db.
Proof.
  rewrite Forall_forall. split.
  - intros H.
    assert (forall t n es s, section_in db t n es -> about sch t s -> section_ok sch ignore t s (n, es)) as SO.
    { intros t n es s SI A. destruct (section_text _ _ _ SI) as (Tt & _ & _). destruct SI as (ns & I0 & I1). specialize (H _ I0). unfold type_ok in H. cbn [fst snd] in H. destruct H as [_ H].
      rewrite Forall_forall in H. specialize (H s (proj2 (in_sections sch t s T Tt) A)). rewrite Forall_forall in H. exact (H _ I1). }
    split; [|split; [|split]].
    + destruct ignore eqn:IG; [auto|]. right. split.
      * intros t ns I0. destruct (type_text _ _ I0) as (x & Q & Tx & _). injection Q as <-. specialize (H _ I0). unfold type_ok in H. cbn [fst] in H. destruct H as [[?|N] _]; [discriminate|].
        destruct (sections_for sch t) as [|s l] eqn:E; [congruence|]. exists s. apply in_sections; auto. rewrite E. left; reflexivity.
      * intros t n key vs (s & A) EI. destruct (entry_text _ _ _ _ EI) as (Tt & Tk & _). destruct EI as (es & SI & I0). destruct (SO t n es s SI A) as (_ & F & _). cbn [snd] in F. rewrite Forall_forall in F. specialize (F _ I0).
        destruct F as [[?|N] _]; [discriminate|]. destruct (entries_for sch t key) as [|e l] eqn:E; [congruence|]. exists e. apply in_entries; auto. rewrite E. left; reflexivity.
    + intros t n es s SI A. apply name_bad_iff. destruct (SO t (Some n) es s SI A) as (B & _). exact B.
    + intros t n key vs e EI AE. destruct (entry_text _ _ _ _ EI) as (Tt & Tk & _). destruct EI as (es & SI & I0). pose proof AE as (s & A & _). destruct (SO t n es s SI A) as (_ & F & _). cbn [snd] in F. rewrite Forall_forall in F. specialize (F _ I0).
      destruct F as [_ F]. cbn [snd] in F. rewrite Forall_forall in F. apply F. apply in_entries; auto.
    + intros t n es s f SI A FE. destruct (SO t n es s SI A) as (_ & _ & F). exact (F f FE).
  - intros (K & N & V & C) [t ns] I0. destruct (type_text _ _ I0) as (x & -> & Tx & O). unfold type_ok. cbn [fst snd]. split.
    + destruct K as [K|[K _]]; [auto|]. right. destruct (K x ns I0) as (s & A). apply (in_sections sch x s T Tx) in A. destruct (sections_for sch x); [easy|discriminate].
    + apply Forall_forall. intros s A. apply (in_sections sch x s T Tx) in A. apply Forall_forall. intros [n es] I1. assert (section_in db x n es) as SI by (exists ns; auto). split; [|split].
      * cbn [fst]. destruct n as [n|]; [|reflexivity]. apply name_bad_iff. exact (N x n es s SI A).
      * cbn [snd]. apply Forall_forall. intros [k vs] I2. destruct (section_text _ _ _ SI) as (_ & _ & O2). destruct (okt_key _ _ _ _ _ O2 I2) as [Kk P]. destruct k as [k|]; [|cbn in Kk; discriminate]. cbn in Kk.
        assert (entry_in db x n k vs) as EI by (exists es; auto). unfold entry_ok. cbn [fst snd]. split.
        -- destruct K as [K|[_ K]]; [auto|]. right. destruct (K x n k vs (ex_intro _ s A) EI) as (e & AE). apply (in_entries sch x k e T Tx Kk) in AE. destruct (entries_for sch x k); [easy|discriminate].
        -- apply Forall_forall. intros e AE. apply (in_entries sch x k e T Tx Kk) in AE. exact (V x n k vs e EI AE).
      * cbn [fst snd]. intros f FE. exact (C x n es s f SI A FE).
Qed.
Lemma has_key_find es key : okt true (fun vs : svals => vs <> []) es -> text key -> (has_key es key <-> t_find es (Some key) <> None).
Proof.
  intros O Tk. split.
  - intros (k & vs & S0 & I0). rewrite (okt_find_same true (fun vs : svals => vs <> []) es (Some key) (Some k) vs O); cbn; auto. discriminate.
  - intros N. destruct (t_find es (Some key)) as [vs|] eqn:E; [|easy]. destruct (okt_find true (fun vs : svals => vs <> []) es (Some key) vs O Tk E) as (k & S0 & I0). destruct k as [k|]; [|discriminate]. exists k, vs. auto.
Qed.
Lemma find_names s ns : In s sch -> t_find db (Some (s_type s)) = Some ns -> exists t, same (s_type s) t = true /\ In (Some t, ns) db.
Proof.
  intros I0 E. destruct (T s I0) as (Ts & _). destruct (okt_find _ _ _ (Some (s_type s)) ns W Ts E) as (k & S0 & I1). destruct k as [t|]; [|discriminate]. eauto.
Qed.
Lemma names_find s t ns : In s sch -> same (s_type s) t = true -> In (Some t, ns) db -> t_find db (Some (s_type s)) = Some ns.
Proof. intros I0 E I1. destruct (T s I0) as (Ts & _). exact (okt_find_same _ _ db (Some (s_type s)) (Some t) ns W Ts I1 E). Qed.
Lemma missing_sections_ok : existsb (missing_section db) sch = false <-> sections_there sch db.
Proof.
  split.
  - intros H s I0 M. assert (missing_section db s = false) as H1. { destruct (missing_section db s) eqn:E; [|reflexivity]. assert (existsb (missing_section db) sch = true) by (apply existsb_exists; eauto). congruence. }
    unfold missing_section in H1. rewrite M in H1. destruct (t_find db (Some (s_type s))) as [ns|] eqn:E; [|discriminate]. destruct (find_names s ns I0 E) as (t & S0 & I1).
    destruct ns as [|[[n|] es] ns]; [discriminate| |destruct ns as [|[[n|] es2] ns]; [discriminate| |]].
    + exists t, n, es. split; [exact S0|]. eexists. split; [exact I1|]. left; reflexivity.
    + exists t, n, es2. split; [exact S0|]. eexists. split; [exact I1|]. right; left; reflexivity.
    + destruct (type_text _ _ I1) as (x & _ & _ & O). cbn [okt] in O. destruct O as (_ & _ & F & _). pose proof (Forall_inv F) as Q. cbn in Q. lia.
  - intros H. destruct (existsb (missing_section db) sch) eqn:E; [|reflexivity]. apply existsb_exists in E. destruct E as (s & I0 & M). exfalso. unfold missing_section in M. destruct (s_mode s) eqn:MO; try discriminate.
    destruct (H s I0 MO) as (t & n & es & S0 & ns & I1 & I2). rewrite (names_find s t ns I0 S0 I1) in M. destruct ns as [|[[x|] es1] [|[x2 es2] ns]]; try discriminate; [easy|]. destruct I2 as [Q|[]]; discriminate.
Qed.
Lemma missing_entries_ok : existsb (fun s => existsb (missing_entry db s) (s_entries s)) sch = false <-> named_entries_there sch db.
Proof.
  split.
  - intros H t n es s e SI [I0 S0] Ie D. destruct (section_text _ _ _ SI) as (_ & _ & O2). destruct SI as (ns & I1 & I2). destruct (T s I0) as (_ & _ & Te). specialize (Te e Ie).
    assert (missing_entry db s e = false) as M. { destruct (missing_entry db s e) eqn:E; [|reflexivity]. assert (existsb (fun s => existsb (missing_entry db s) (s_entries s)) sch = true); [|congruence]. apply existsb_exists. exists s. split; [exact I0|]. apply existsb_exists. eauto. }
    unfold missing_entry in M. rewrite (names_find s t ns I0 S0 I1), D in M. apply Bool.andb_false_iff in M. destruct (type_text _ _ I1) as (x & Q & Tx & O). injection Q as <-. destruct M as [M|M].
    + right. destruct (t_find ns None) as [es0|] eqn:E0; [|discriminate]. destruct (okt_find _ _ ns None es0 O Logic.I E0) as (k & Sk & I3). destruct k; [discriminate|]. exists es0. split; [exists ns; auto|].
      apply has_key_find; [exact (proj2 (okt_key _ _ _ _ _ O I3))|exact Te|]. destruct (t_find es0 (Some (e_key e))); discriminate.
    + left. apply has_key_find; [exact O2|exact Te|]. intros X. apply Bool.not_true_iff_false in M. apply M. apply existsb_exists. exists (Some n, es). split; [exact I2|]. cbn [fst snd]. rewrite X. reflexivity.
  - intros H. destruct (existsb _ sch) eqn:E; [|reflexivity]. exfalso. apply existsb_exists in E. destruct E as (s & I0 & E). apply existsb_exists in E. destruct E as (e & Ie & M). destruct (T s I0) as (_ & _ & Te). specialize (Te e Ie).
    unfold missing_entry in M. destruct (t_find db (Some (s_type s))) as [ns|] eqn:Ed; [|discriminate]. destruct (e_def e) eqn:D; [discriminate|]. apply Bool.andb_true_iff in M. destruct M as [M1 M2].
    destruct (find_names s ns I0 Ed) as (t & S0 & I1). destruct (type_text _ _ I1) as (x & Q & Tx & O). injection Q as <-.
    apply existsb_exists in M2. destruct M2 as ([n es] & I2 & M2). cbn [fst snd] in M2. destruct n as [n|]; [|discriminate]. assert (section_in db t (Some n) es) as SI by (exists ns; auto).
    destruct (H t n es s e SI (conj I0 S0) Ie D) as [K|(es0 & (ns0 & I3 & I4) & K)].
    + apply has_key_find in K; [|exact (proj2 (okt_key _ _ _ _ _ O I2))|exact Te]. destruct (t_find es (Some (e_key e))); [discriminate|easy].
    + assert (ns0 = ns) as ->. { pose proof (eq_trans (eq_sym (okt_in _ _ _ _ _ W I3)) (okt_in _ _ _ _ _ W I1)) as X. injection X as X. exact X. }
      assert (@t_find sentries ns None = Some es0) as Q4 by exact (okt_in _ _ _ _ _ O I4). rewrite Q4 in M1. apply has_key_find in K; [|exact (proj2 (okt_key _ _ _ _ _ O I4))|exact Te]. destruct (t_find es0 (Some (e_key e))); [discriminate|easy].
Qed.
Lemma validate_plain ignore : exists r, validate sch false ignore db = Some (db, r) /\ (r = 0 \/ r = -1) /\ (r = 0 <-> valid_but (named_entries_there sch db) sch ignore db).
Proof.
  unfold validate. destruct (types_plain sch ignore db db_shape false) as (e & -> & E). eexists. split; [reflexivity|]. split; [destruct (e || _ || _); auto|].
  transitivity (e || existsb (missing_section db) sch || existsb (fun s => existsb (missing_entry db s) (s_entries s)) sch = false); [destruct (e || _ || _); split; intros; try discriminate; reflexivity|].
  rewrite !Bool.orb_false_iff, E, first_part, missing_sections_ok, missing_entries_ok. unfold valid_but. tauto.
Qed.
End Plain.
