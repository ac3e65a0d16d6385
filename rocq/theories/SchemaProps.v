(** C100-C102: what validation of a configuration accepts, what is left of one
    after its clean-up, and what plugins are told about a change of it. *)
From Verif Require Import Base BitsModel StrBase CompModel StringModel CfgModel CfgSpec CfgTree SchemaModel SchemaSpec SchemaProofs SchemaProofs2 SchemaProofs3.

(** C100: validation without clean-up changes nothing and accepts exactly the
    valid configurations.  Missing: entries without a default are looked for in
    the sections with a name only. *)
Theorem C100_validate_partial sch db ignore : sch_text sch -> swf db ->
  exists r, validate sch false ignore db = Some (db, r) /\ (r = 0 \/ r = -1) /\
  (r = 0 <-> valid_but (named_entries_there sch db) sch ignore db).
Proof. intros T W. exact (validate_plain sch db T W ignore). Qed.
(** an error found is an error *)
Theorem C100_sound sch db ignore : sch_text sch -> swf db -> valid sch ignore db -> validate sch false ignore db = Some (db, 0).
Proof.
  intros T W (A & B & C & D & E & F). destruct (validate_plain sch db T W ignore) as (r & -> & _ & H). repeat f_equal. apply H. repeat (split; [assumption|]). intros t n es s e. apply F.
Qed.
(** the clean-up (C101).  [db'] is what is left. *)
Theorem C101_cleanup sch ignore db : sch_text sch -> once sch -> swf db ->
  exists db' r, validate sch true ignore db = Some (db', r) /\ (r = 0 \/ r = -1) /\
  (r = 0 -> (ignore = true \/ types_known sch db /\ entries_known sch db) /\ names_fine sch db /\ values_fine sch db) /\
  names_fine sch db' /\ values_fine sch db' /\ (ignore = true \/ types_known sch db') /\
  (forall t n key vs', entry_in db' t n key vs' -> exists vs, entry_in db t n key vs /\ exists suf, vs = vs' ++ suf).
Proof.
  intros T O1 W. destruct (cleaned sch ignore db T O1 W) as (r & E & R1 & R2). exists (clean_db sch ignore db), r. split; [exact E|]. split; [exact R1|]. split; [exact R2|].
  split; [exact (cleaned_names sch ignore db T O1 W)|]. split; [exact (cleaned_values sch ignore db T O1 W)|]. split; [exact (cleaned_types sch ignore db T W)|].
  intros t n key vs'. exact (cleaned_old sch ignore db T O1 W t n key vs').
Qed.
(** Nothing good is lost.  Missing: good elements of a list after a bad one. *)
Theorem C101_keeps_partial sch ignore db db' r t n es key vs : sch_text sch -> once sch -> swf db -> validate sch true ignore db = Some (db', r) ->
  section_in db t n es -> In (Some key, vs) es -> ignore = true \/ (exists s, about sch t s) ->
  (forall s x, about sch t s -> n = Some x -> s_mode s <> Unnamed /\ ~ In 32 x) -> (forall e, about_entry sch t key e -> fine e vs) ->
  exists vs', entry_in db' t n key vs' /\ hd_error vs' = hd_error vs /\ ((forall e, about_entry sch t key e -> e_list e = true \/ e_check e = None) -> vs' = vs).
Proof.
  intros T O1 W E SI I0 K NF VF. destruct (cleaned sch ignore db T O1 W) as (r' & E' & _). rewrite E in E'. injection E' as -> _. exact (cleaned_keeps sch ignore db T O1 W t n es key vs SI I0 K NF VF).
Qed.

(** C102: a plugin that does what its handler is told knows the configuration.
    Missing: a section that exists by default when the values of its type change. *)
Theorem C102_follows_partial sch s pre post (m : memory) : sch_text sch -> In s sch -> swf pre -> swf post ->
  (forall n, relevant s n -> m n = view sch pre s n) ->
  (s_mode s = NamedDefault -> needs_default (t_find pre (Some (s_type s))) = true -> needs_default (t_find post (Some (s_type s))) = true ->
   view sch pre s (Some (s_def s)) = view sch post s (Some (s_def s))) ->
  forall n, relevant s n -> told s m (handle_section sch s pre post false) n = view sch post s n.
Proof.
  intros T I0 W1 W2 M D. apply (follows sch s pre post T I0 W1 W2 m M). intros MO. unfold default_in. rewrite MO. exact (D MO).
Qed.
(** ... from the start on.  Missing: a section type without a section. *)
Theorem C102_startup_partial sch s post (m : memory) : sch_text sch -> In s sch -> swf post ->
  (is_named_mode (s_mode s) = true -> forall n, relevant s n -> m n = None) ->
  (s_mode s = Unnamed -> t_find post (Some (s_type s)) <> None -> find_sec post (s_type s) None <> None) ->
  forall n, relevant s n -> told s m (handle_section sch s [] post true) n = view sch post s n.
Proof. exact (startup_follows sch s post m). Qed.
(** The handlers of all sections of the schema and no other ones, in order. *)
Theorem C102_everyone sch pre post : map fst (db_changes sch pre post) = filter s_delta sch /\
  (forall s cs, In (s, cs) (db_changes sch pre post) -> cs = handle_section sch s pre post false) /\
  map fst (startup_changes sch post) = filter s_delta sch /\
  (forall s cs, In (s, cs) (startup_changes sch post) -> cs = handle_section sch s [] post true).
Proof.
  unfold db_changes, startup_changes, handle_changes. rewrite !map_map. cbn [fst]. rewrite !map_id. split; [reflexivity|]. split; [|split; [reflexivity|]]; intros s cs I0; apply in_map_iff in I0; destruct I0 as (s' & E & _); injection E as <- <-; reflexivity.
Qed.
(** What it is told is true and new, and told once.  Missing: sections with a default name. *)
Theorem C102_calls_partial sch s pre post : sch_text sch -> In s sch -> swf pre -> swf post -> s_mode s <> NamedDefault ->
  ForallOrdPairs (fun a b => same_name a b = false) (map c_name (handle_section sch s pre post false)) /\
  forall c, In c (handle_section sch s pre post false) ->
    c_vals c = map (fun e => let a := get_val sch pre (s_type s) (c_name c) (e_key e) in let b := get_val sch post (s_type s) (c_name c) (e_key e) in (a, b, sdiff a b)) (s_entries s) /\
    (is_named_mode (s_mode s) = true -> c_name c <> None /\ c_pre c = configured pre s (c_name c) /\ c_post c = configured post s (c_name c)) /\
    (relevant s (c_name c) -> view sch pre s (c_name c) <> view sch post s (c_name c)).
Proof.
  intros T I0 W1 W2 ND. split; [exact (section_once sch s pre post W1 W2 ND)|]. intros c. exact (section_truth sch s pre post T I0 W1 W2 c ND).
Qed.
Theorem C102_sdiff a b : sdiff a b = true <-> a <> b.
Proof. apply sdiff_iff. Qed.

(** ** Examples *)
Definition digits (v : bytes) : bool := forallb (fun c => (48 <=? c) && (c <=? 57)) v.
Definition e_mtu := {| e_key := zs "mtu"; e_def := None; e_list := false; e_check := Some digits |}.
Definition e_acl := {| e_key := zs "acl"; e_def := Some [zs "1"]; e_list := true; e_check := Some digits |}.
Definition s_if := {| s_type := zs "interface"; s_mode := Named; s_def := []; s_entries := [e_mtu; e_acl]; s_check := None; s_delta := true |}.
Definition s_log := {| s_type := zs "log"; s_mode := Unnamed; s_def := []; s_entries := [{| e_key := zs "level"; e_def := None; e_list := false; e_check := Some digits |}]; s_check := None; s_delta := true |}.
Definition s_dom := {| s_type := zs "domain"; s_mode := NamedDefault; s_def := zs "0"; s_entries := [{| e_key := zs "table"; e_def := Some [zs "254"]; e_list := false; e_check := Some digits |}]; s_check := None; s_delta := true |}.
Definition sch0 : schema := [s_if; s_log; s_dom].
Definition dbok : sdb := [(Some (zs "interface"), [(None, [(Some (zs "MTU"), [zs "1500"])]); (Some (zs "eth0"), [(Some (zs "acl"), [zs "1"; zs "2"])])])].
Definition db9 : sdb := [(Some (zs "interface"), [(None, [(Some (zs "MTU"), [zs "9000"])]); (Some (zs "eth0"), [(Some (zs "acl"), [zs "1"; zs "2"])]); (Some (zs "eth1"), [])])].

Ltac texts := cbn; repeat (first [apply Forall_nil | apply Forall_cons]); try lia.
Ltac swfs := cbn; repeat apply conj; try exact Logic.I; try discriminate; try reflexivity; texts; try reflexivity.
Lemma sch0_text : sch_text sch0.
Proof. intros s [<-|[<-|[<-|[]]]]; (split; [texts|]; split; [texts|]); cbn; intros e I0; repeat (destruct I0 as [<-|I0]; [texts|]); destruct I0. Qed.
Lemma sch0_once : once sch0.
Proof.
  intros t key Tt Tk. unfold entries_for, sch0. cbn [flat_map].
  rewrite !keq_same by (try assumption; texts). 
  assert (forall a b, same a t = true -> same b t = true -> same a b = true) as X by (intros a b; rewrite !same_eq; congruence).
  assert (forall a b, same a key = true -> same b key = true -> same a b = true) as Y by (intros a b; rewrite !same_eq; congruence).
  assert (forall l, (forall e, In e l -> text (e_key e)) -> filter (fun e => keq key (e_key e)) l = filter (fun e => same (e_key e) key) l) as Z0.
  { intros l H. apply filter_ext_in. intros e I0. apply keq_same; auto. }
  destruct (same (s_type s_if) t) eqn:E1, (same (s_type s_log) t) eqn:E2; try (discriminate (X _ _ E1 E2)); destruct (same (s_type s_dom) t) eqn:E3; try (discriminate (X _ _ E1 E3)); try (discriminate (X _ _ E2 E3));
    rewrite ?Z0 by (cbn; intros e I0; repeat (destruct I0 as [<-|I0]; [texts|]); destruct I0); cbn [s_entries s_if s_log s_dom filter app].
  - destruct (same (e_key e_mtu) key) eqn:K1, (same (e_key e_acl) key) eqn:K2; try (discriminate (Y _ _ K1 K2)); cbn; lia.
  - destruct (same _ key); cbn; lia.
  - destruct (same _ key); cbn; lia.
  - cbn; lia.
Qed.
(** errors of all kinds that a clean-up repairs *)
Definition dbbad : sdb := [(Some (zs "interface"), [(None, [(Some (zs "MTU"), [zs "1500"])]); (Some (zs "eth0"), [(Some (zs "acl"), [zs "1"; zs "2"]); (Some (zs "mtu"), [zs "many"])]); (Some (zs "my eth"), [])]);
  (Some (zs "typo"), [(None, [(Some (zs "a"), [zs "b"])])])].
Definition dbfix : sdb := [(Some (zs "interface"), [(None, [(Some (zs "MTU"), [zs "1500"])]); (Some (zs "eth0"), [(Some (zs "acl"), [zs "1"; zs "2"])])])].

Example C100_ex : sch_text sch0 /\ swf dbok /\ validate sch0 false false dbok = Some (dbok, 0) /\ validate sch0 false false dbbad = Some (dbbad, -1).
Proof. split; [exact sch0_text|]. split; [swfs|]. split; vm_compute; reflexivity. Qed.
Example C101_ex : sch_text sch0 /\ once sch0 /\ swf dbbad /\ validate sch0 true false dbbad = Some (dbfix, -1) /\ validate sch0 true false dbok = Some (dbok, 0).
Proof. split; [exact sch0_text|]. split; [exact sch0_once|]. split; [swfs|]. split; vm_compute; reflexivity. Qed.
(** a new mtu for all interfaces, and a new interface *)
Example C102_ex : sch_text sch0 /\ In s_if sch0 /\ swf dbok /\ swf db9 /\
  map (fun c => (c_name c, c_pre c, c_post c, map snd (c_vals c))) (handle_section sch0 s_if dbok db9 false) =
    [(Some (zs "eth0"), true, true, [true; false]); (Some (zs "eth1"), false, true, [true; false])] /\
  view sch0 db9 s_if (Some (zs "eth1")) = Some [Some [zs "9000"]; Some [zs "1"]] /\
  map (fun c => (c_name c, c_pre c, c_post c)) (handle_section sch0 s_dom [] dbok true) = [(Some (zs "0"), false, true)] /\
  map c_name (handle_section sch0 s_log [] dbok true) = [None].
Proof. split; [exact sch0_text|]. split; [left; reflexivity|]. split; [swfs|]. split; [swfs|]. repeat split; vm_compute; reflexivity. Qed.

(** ** What is not true *)
(** A section without a name and without an entry that has to be there is accepted. *)
Theorem C100_mandatory_refuted : exists sch db, sch_text sch /\ swf db /\ validate sch false false db = Some (db, 0) /\ ~ valid sch false db.
Proof.
  exists [s_log], [(Some (zs "log"), [(None, [])])]. split; [intros s [<-|[]]; (split; [texts|]; split; [texts|]); cbn; intros e [<-|[]]; texts|]. split; [swfs|]. split; [vm_compute; reflexivity|].
  intros (_ & _ & _ & _ & _ & H). destruct (H (zs "log") None [] s_log {| e_key := zs "level"; e_def := None; e_list := false; e_check := Some digits |}) as [(k & vs & _ & [])|(es & (ns & [E|[]] & I0) & k & vs & _ & I1)].
  - exists [(None, [])]. split; left; reflexivity.
  - split; [left; reflexivity|reflexivity].
  - left; reflexivity.
  - reflexivity.
  - injection E as <-. destruct I0 as [E|[]]. injection E as <-. destruct I1.
Qed.
(** A good element of a list after a bad one is removed. *)
Theorem C101_list_refuted : exists sch db db' r t n key e vs v, sch_text sch /\ once sch /\ swf db /\ validate sch true false db = Some (db', r) /\
  about_entry sch t key e /\ e_list e = true /\ entry_in db t n key vs /\ In v vs /\ (forall check, e_check e = Some check -> check v = true) /\
  forall vs', entry_in db' t n key vs' -> ~ In v vs'.
Proof.
  exists sch0, [(Some (zs "interface"), [(None, [(Some (zs "acl"), [zs "1"; zs "x"; zs "2"])])])]. do 2 eexists. exists (zs "interface"), None, (zs "acl"), e_acl, [zs "1"; zs "x"; zs "2"], (zs "2").
  split; [exact sch0_text|]. split; [exact sch0_once|]. split; [swfs|]. split; [vm_compute; reflexivity|]. split; [exists s_if; split; [split; [left; reflexivity|reflexivity]|split; [right; left; reflexivity|reflexivity]]|].
  split; [reflexivity|]. split; [exists [(Some (zs "acl"), [zs "1"; zs "x"; zs "2"])]; split; [exists [(None, [(Some (zs "acl"), [zs "1"; zs "x"; zs "2"])])]; split; left; reflexivity|left; reflexivity]|]. split; [right; right; left; reflexivity|]. split; [intros check E; injection E as <-; reflexivity|].
  intros vs' (es & (ns & I1 & I2) & I3). destruct I1 as [E|[]]. injection E as <-. destruct I2 as [E|[]]. injection E as <-. destruct I3 as [E|[]]. injection E as <-. intros [E|[]]. discriminate.
Qed.
(** An unknown entry is an error and stays. *)
Theorem C101_unknown_refuted : exists sch db db', sch_text sch /\ once sch /\ swf db /\ validate sch true false db = Some (db', -1) /\ ~ entries_known sch db' /\
  validate sch true false db' = Some (db', -1).
Proof.
  exists sch0, [(Some (zs "interface"), [(None, [(Some (zs "typo"), [zs "1"])])])]. eexists. split; [exact sch0_text|]. split; [exact sch0_once|]. split; [swfs|]. split; [vm_compute; reflexivity|]. split; [|vm_compute; reflexivity].
  intros H. destruct (H (zs "interface") None (zs "typo") [zs "1"]) as (e & s & (I0 & E) & I1 & E1).
  - exists s_if. split; [left; reflexivity|reflexivity].
  - exists [(Some (zs "typo"), [zs "1"])]. split; [exists [(None, [(Some (zs "typo"), [zs "1"])])]; split; left; reflexivity|left; reflexivity].
  - destruct I0 as [<-|[<-|[<-|[]]]]; try discriminate. destruct I1 as [<-|[<-|[]]]; discriminate.
Qed.
(** Two plugins check the same entry (the trees of the schema allow duplicates,
    cfg_schema.c:96-97): after the first one removed it the second one reads it. *)
Theorem C101_freed_refuted : exists sch db, sch_text sch /\ swf db /\ validate sch true false db = None /\ validate sch false false db <> None.
Proof.
  exists [s_if; s_if], [(Some (zs "interface"), [(None, [(Some (zs "mtu"), [zs "x"])])])]. split; [intros s [<-|[<-|[]]]; (split; [texts|]; split; [texts|]); cbn; intros e I0; repeat (destruct I0 as [<-|I0]; [texts|]); destruct I0|]. split; [swfs|]. split; [vm_compute; reflexivity|vm_compute; discriminate].
Qed.
(** The section that exists by default gets its values from the unnamed section;
    when these change, its plugin is not told. *)
Theorem C102_default_refuted : exists sch s pre post, sch_text sch /\ In s sch /\ swf pre /\ swf post /\ handle_section sch s pre post false = [] /\
  relevant s (Some (s_def s)) /\ view sch pre s (Some (s_def s)) = Some [Some [zs "1"]] /\ view sch post s (Some (s_def s)) = Some [Some [zs "2"]].
Proof.
  exists sch0, s_dom, [(Some (zs "domain"), [(None, [(Some (zs "table"), [zs "1"])])])], [(Some (zs "domain"), [(None, [(Some (zs "table"), [zs "2"])])])].
  split; [exact sch0_text|]. split; [right; right; left; reflexivity|]. split; [swfs|]. split; [swfs|]. split; [vm_compute; reflexivity|]. split; [split; [texts|discriminate]|]. split; vm_compute; reflexivity.
Qed.
(** When it disappears its plugin is called for a section that neither was there nor is. *)
Theorem C102_default_gone_refuted : exists sch s pre post c, sch_text sch /\ In s sch /\ swf pre /\ swf post /\ In c (handle_section sch s pre post false) /\
  configured pre s (c_name c) = true /\ c_pre c = false /\ c_post c = false.
Proof.
  exists sch0, s_dom, [], [(Some (zs "domain"), [(Some (zs "1"), [])])]. eexists.
  split; [exact sch0_text|]. split; [right; right; left; reflexivity|]. split; [exact Logic.I|]. split; [swfs|]. split; [right; left; reflexivity|]. repeat split; vm_compute; reflexivity.
Qed.
(** When it is written down its plugin is called twice, and the second time as if it was new. *)
Theorem C102_twice_refuted : exists sch s pre post c1 c2, sch_text sch /\ In s sch /\ swf pre /\ swf post /\ handle_section sch s pre post false = [c1; c2] /\
  same_name (c_name c1) (c_name c2) = true /\ configured pre s (c_name c2) = true /\ c_pre c2 = false /\ c_post c2 = true.
Proof.
  exists sch0, s_dom, [], [(Some (zs "domain"), [(Some (zs "0"), [(Some (zs "table"), [zs "3"])])])]. do 2 eexists.
  split; [exact sch0_text|]. split; [right; right; left; reflexivity|]. split; [exact Logic.I|]. split; [swfs|]. split; [vm_compute; reflexivity|]. repeat split; vm_compute; reflexivity.
Qed.
(** A section type of which no section is left (cfg_db_remove_namedsection): its plugin is not told its defaults at the start. *)
Theorem C102_startup_refuted : exists sch s post n, sch_text sch /\ In s sch /\ swf post /\ relevant s n /\ view sch post s n <> None /\ handle_section sch s [] post true = [] /\
  handle_section sch s [] [] true <> [].
Proof.
  exists sch0, s_log, [(Some (zs "log"), [])], None. split; [exact sch0_text|]. split; [right; left; reflexivity|]. split; [swfs|]. split; [split; [exact Logic.I|reflexivity]|]. split; [vm_compute; discriminate|]. split; [vm_compute; reflexivity|vm_compute; discriminate].
Qed.

Print Assumptions C100_validate_partial.
Print Assumptions C100_sound.
Print Assumptions C100_mandatory_refuted.
Print Assumptions C101_cleanup.
Print Assumptions C101_keeps_partial.
Print Assumptions C101_list_refuted.
Print Assumptions C101_unknown_refuted.
Print Assumptions C101_freed_refuted.
Print Assumptions C102_follows_partial.
Print Assumptions C102_startup_partial.
Print Assumptions C102_everyone.
Print Assumptions C102_calls_partial.
Print Assumptions C102_sdiff.
Print Assumptions C102_default_refuted.
Print Assumptions C102_default_gone_refuted.
Print Assumptions C102_twice_refuted.
Print Assumptions C102_startup_refuted.
