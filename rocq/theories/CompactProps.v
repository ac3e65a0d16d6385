(** C65, C66: the compact configuration format: what a file says, and saving and
    loading a database. *)
From Verif Require Import Base BitsModel StrBase BufLemmas NetaddrModel StringModel StringSpec StringProofs CfgModel CfgSpec CfgTree CfgProofs
  CompactModel CompactSpec CompactProofs CompactRound.

(** * C66: reading a file *)
(** Every sequence of bytes has lines, and every line has a meaning. *)
Theorem C66_meaning content : exists ls cls, Lines content ls /\ Forall2 means ls cls.
Proof.
  destruct (lines_exist (length content) content (le_n _)) as (ls & L). exists ls.
  assert (exists cls, Forall2 means ls cls) as (cls & F); [|eauto]. clear L. induction ls as [|l ls (cls & IH)]; [exists []; constructor|].
  destruct (means_exist l) as (cl & M). exists (cl :: cls). constructor; auto.
Qed.
(** Whatever is in the file and in the memory behind it, in whatever state the
    database is: the operations of the lines up to the first error are done,
    nothing else; the result tells whether there was an error.  Missing: lines
    in a section which have a key without a value (see C66_no_value_refuted). *)
Theorem C66_parse_partial junk hist db rs content slack ls cls ops r : Forall op_text hist -> 
  c_run junk [] (full hist) = Some (db, rs) -> Forall is_u8 content ->
  Lines content ls -> Forall2 means ls cls -> follow None cls = Some (ops, r) ->
  exists db' rs', compact_parse junk db content slack = Some (db', r) /\ c_run junk db (full ops) = Some (db', rs').
Proof.
  intros T R U L F FO. destruct (run_a_ops junk hist [] a_empty wf_empty agrees_empty T) as (db1 & rs1 & R1 & W & A).
  rewrite R in R1. injection R1 as <- <-.
  destruct (file_ok junk content ls L cls F (length content) {| p_mem := content ++ 0 :: slack; p_section := []; p_name := []; p_db := db |} 
    (a_ops a_empty hist) [] slack None ops r) as (s' & rs' & P & C); auto. { reflexivity. }
  exists (p_db s'), rs'. split; auto. unfold compact_parse.
  change (parse_lines (length content) junk {| p_mem := content ++ 0 :: slack; p_section := []; p_name := []; p_db := db |} (zlen content) 0 = Some (s', r)) in P.
  now rewrite P.
Qed.

Definition cfile : bytes := zs "# test" ++ [10] ++ zs "[interface=eth0]" ++ [13; 10] ++ [9] ++ zs "hello  2.0 s " ++ [10] ++ [10] ++ zs "[olsr]" ++ [10] ++ zs "flag true".
Example C66_ex : exists ls cls ops db', Lines cfile ls /\ Forall2 means ls cls /\ follow None cls = Some (ops, 0) /\ length ops = 4%nat /\
  compact_parse (fun _ => 170) [] cfile [1; 2] = Some (db', 0) /\
  reads db' (zs "interface") (Some (zs "ETH0")) (zs "hello") = Some (Some [zs "2.0 s"]) /\ reads db' (zs "olsr") None (zs "flag") = Some (Some [zs "true"]).
Proof.
  assert (forall l, trimmed l (str_trim l)) as TR. { intros l. apply trim_spec. }
  exists [zs "# test"; zs "[interface=eth0]" ++ [13]; [9] ++ zs "hello  2.0 s "; []; zs "[olsr]"; zs "flag true"],
    [LBlank; LSection (zs "interface") (Some (zs "eth0")); LEntry (zs "hello") (zs "2.0 s"); LBlank; LSection (zs "olsr") None; LEntry (zs "flag") (zs "true")].
  eexists _, _. split; [|split; [|split; [vm_compute; reflexivity|split; [reflexivity|split; [vm_compute; reflexivity|split; vm_compute; reflexivity]]]]].
  - unfold cfile. 
    assert (forall l, forallb (fun c => negb ((c =? 0) || (c =? 10))) l = true -> in_line l) as IL.
    { intros l H. apply Forall_forall. intros x X. rewrite forallb_forall in H. specialize (H x X). unfold line_end. lia. }
    apply (Lines_cons (zs "# test") 10); [now apply IL|now right|].
    apply (Lines_cons (zs "[interface=eth0]" ++ [13]) 10 ([9] ++ zs "hello  2.0 s " ++ [10] ++ [10] ++ zs "[olsr]" ++ [10] ++ zs "flag true")); [now apply IL|now right|].
    apply (Lines_cons ([9] ++ zs "hello  2.0 s ") 10); [now apply IL|now right|].
    apply (Lines_cons [] 10); [now apply IL|now right|].
    apply (Lines_cons (zs "[olsr]") 10); [now apply IL|now right|]. apply Lines_last; [discriminate|now apply IL].
  - assert (forall c l, existsb (Z.eqb c) l = false -> ~ In c l) as NI.
    { intros c l H I. assert (existsb (Z.eqb c) l = true); [|congruence]. apply existsb_exists. exists c. split; auto. lia. }
    assert (forall l, forallb (fun c => negb (isspace c)) l = true -> word l) as WD.
    { intros l H. apply Forall_forall. intros x X. rewrite forallb_forall in H. specialize (H x X). now apply negb_true_iff in H. }
    constructor. { apply (m_comment _ (zs " test")). apply TR. }
    constructor. { apply (m_named _ (zs "interface") (zs "eth0") [] (zs "interface") (zs "eth0")); try (now apply NI); try apply TR.
                   apply (head_ok (zs "interface") (zs "eth0")); [discriminate|reflexivity|now apply NI]. }
    constructor. { apply (m_entry _ (zs "hello") 32 (zs " 2.0 s")); try apply TR; try (now apply WD); auto. cbn. lia. }
    constructor. { apply m_blank. apply TR. }
    constructor. { apply (m_section _ (zs "olsr") [] (zs "olsr")); try (now apply NI); try apply TR. apply (head_ok (zs "olsr") []); [discriminate|reflexivity|now apply NI]. }
    constructor. { apply (m_entry _ (zs "flag") 32 (zs "true")); try apply TR; try (now apply WD); auto. cbn. lia. }
    constructor.
Qed.

(** A key without a value takes the next line as its value, even if it is a
    comment, whose words then are an entry of their own.  (The parser steps over
    the end of the line.) *)
Theorem C66_no_value_refuted junk : exists content db', 
  content = zs "[a]" ++ [10] ++ zs "k" ++ [10] ++ zs "# some comment" ++ [10] /\
  compact_parse junk [] content [] = Some (db', 0) /\ 
  reads db' (zs "a") None (zs "k") = Some (Some [zs "some comment"]) /\ reads db' (zs "a") None (zs "some") = Some (Some [zs "comment"]).
Proof. eexists _, _. split; [reflexivity|]. vm_compute. auto. Qed.
(** ... and if it is the last line of a file which fills the buffer, then the
    parser reads beyond the buffer. *)
Theorem C66_beyond_refuted junk : exists content, content = zs "[a]" ++ [10] ++ zs "k" /\ compact_parse junk [] content [] = None.
Proof. eexists. split; [reflexivity|]. vm_compute. reflexivity. Qed.

(** * C65: saving and loading *)
(** Every database made of types and keys which are identifiers, and of names and
    values without surrounding spaces and line breaks, is saved, and loading the
    file gives a database with the same sections and the same values.  Missing:
    the order of the values of an entry, which is reversed (see
    C65_order_refuted), and other names and values (see C65_bracket_refuted,
    C65_long_refuted, C65_injection_refuted). *)
Theorem C65_round_trip_partial junk ops slack : Forall op_text ops -> Forall op_good ops ->
  exists db rs file db', c_run junk [] (full ops) = Some (db, rs) /\ serialize db = Some file /\ compact_parse junk [] file slack = Some (db', 0) /\ 
    (forall t n, text t -> text_name n -> (if find_section db' t n then true else false) = (if find_section db t n then true else false)) /\
    (forall t n e, text t -> text_name n -> text e -> exists o, reads db t n e = Some o /\ reads db' t n e = Some (option_map (@rev bytes) o)).
Proof.
  intros T G. destruct (good_round junk ops slack T G) as (db & rs & x & db' & R & _ & S & P & H & V). exists db, rs, x, db'. repeat (split; auto).
Qed.
(** Entries with one value are loaded as they were saved. *)
Theorem C65_single_values junk ops slack : Forall op_text ops -> Forall op_good ops ->
  exists db rs file db', c_run junk [] (full ops) = Some (db, rs) /\ serialize db = Some file /\ compact_parse junk [] file slack = Some (db', 0) /\ 
    forall t n e v, text t -> text_name n -> text e -> (reads db t n e = Some (Some [v]) <-> reads db' t n e = Some (Some [v])).
Proof.
  intros T G. destruct (good_round junk ops slack T G) as (db & rs & x & db' & R & _ & S & P & H & V). exists db, rs, x, db'. do 3 (split; auto).
  intros t n e v Tt Tn Te. destruct (V t n e Tt Tn Te) as (o & -> & ->). split; intros E.
  - now injection E as ->.
  - destruct o as [l|]; [|discriminate]. cbn in E. injection E as E. f_equal. f_equal. rewrite <- (rev_involutive l), E. reflexivity.
Qed.
Definition cops : list cop :=
  [CSet (zs "interface") (Some (zs "eth0")) (zs "bindto") (zs "10.0.0.0/8 -0.0.0.0/0") true true; CAddSection (zs "olsr") None;
   CSet (zs "interface") (Some (zs "eth0")) (zs "bindto") (zs "::1") true true; CSet (zs "global") None (zs "lockfile") (zs "/run/x = [y]") false true].
Example C65_ex : Forall op_text cops /\ Forall op_good cops.
Proof.
  assert (forall s, forallb (fun c => (0 <? c) && (c <=? 255)) s = true -> text s) as TX.
  { intros s H. apply Forall_forall. intros x X. rewrite forallb_forall in H. specialize (H x X). lia. }
  assert (forall c l, existsb (Z.eqb c) l = false -> ~ In c l) as NI.
  { intros c l H I. assert (existsb (Z.eqb c) l = true); [|congruence]. apply existsb_exists. exists c. split; auto. lia. }
  assert (forall s, match s with [] => true | c :: _ => negb (isspace c) end && match rev s with [] => true | c :: _ => negb (isspace c) end = true -> ends_ok s) as EO.
  { intros s H. apply andb_true_iff in H as (H1 & H2). split.
    - intros c r ->. now apply negb_true_iff in H1.
    - intros r c ->. rewrite rev_app_distr in H2. now apply negb_true_iff in H2. }
  assert (forall v, v <> [] -> match v with [] => true | c :: _ => negb (isspace c) end && match rev v with [] => true | c :: _ => negb (isspace c) end = true -> 
    existsb (Z.eqb 10) v = false -> good_value v) as GV. { intros v N E B. repeat split; auto; now apply EO. }
  assert (forall t, t <> [] -> (zlen t <=? 127) && ident t = true -> good_type t) as GT. { intros t N H. apply andb_true_iff in H as (H1 & H2). repeat split; auto. lia. }
  split.
  - repeat constructor; cbn [op_text text_name]; repeat split; now apply TX.
  - assert (good_name (Some (zs "eth0"))) as GN. { cbn [good_name]. split; [discriminate|]. split; [vm_compute; discriminate|]. split; [now apply EO|]. repeat split; now apply NI. }
    assert (good_type (zs "interface") /\ good_type (zs "olsr") /\ good_type (zs "global")) as (T1 & T2 & T3) by (repeat split; try discriminate; vm_compute; discriminate).
    constructor; [|constructor; [|constructor; [|constructor; [|constructor]]]]; cbn [op_good].
    + split; auto. split; auto. split; [discriminate|]. split; [reflexivity|]. now apply GV.
    + split; auto. exact I.
    + split; auto. split; auto. split; [discriminate|]. split; [reflexivity|]. now apply GV.
    + split; auto. split; [exact I|]. split; [discriminate|]. split; [reflexivity|]. now apply GV.
Qed.

(** Two values come back in the other order. *)
Theorem C65_order_refuted junk : exists ops db rs file db', Forall op_text ops /\ Forall op_good ops /\ c_run junk [] (full ops) = Some (db, rs) /\ serialize db = Some file /\
  compact_parse junk [] file [] = Some (db', 0) /\ 
  reads db (zs "a") None (zs "k") = Some (Some [zs "2"; zs "1"]) /\ reads db' (zs "a") None (zs "k") = Some (Some [zs "1"; zs "2"]).
Proof.
  exists [CSet (zs "a") None (zs "k") (zs "1") true true; CSet (zs "a") None (zs "k") (zs "2") true true].
  eexists _, _, _, _. split; [|split; [|split; [vm_compute; reflexivity|split; [vm_compute; reflexivity|split; [vm_compute; reflexivity|split; vm_compute; reflexivity]]]]].
  - repeat constructor; cbn; lia.
  - assert (forall c, isspace c = false -> c <> 10 -> good_value [c]) as GV.
    { intros c S N. split; [discriminate|]. split; [|intros [X|[]]; congruence]. split; [intros x r [= <- _]; auto|]. intros r x E. destruct r as [|y r]; [now injection E as <-|destruct r; discriminate]. }
    assert (good_type (zs "a")) as GT by (repeat split; try discriminate; vm_compute; discriminate).
    constructor; [|constructor; [|constructor]]; (split; [exact GT|]; split; [exact I|]; split; [discriminate|]; split; [reflexivity|]; apply GV; [reflexivity|discriminate]).
Qed.
(** A section name with a bracket is allowed by cfg_is_allowed_section_name, saved, and loaded as another name. *)
Theorem C65_bracket_refuted junk : exists ops db rs file db', Forall op_text ops /\ allowed_name (zs "x]y") = true /\
  ops = [CAddSection (zs "a") (Some (zs "x]y"))] /\ c_run junk [] (full ops) = Some (db, rs) /\ serialize db = Some file /\
  compact_parse junk [] file [] = Some (db', 0) /\ find_section db' (zs "a") (Some (zs "x]y")) = None /\ find_section db' (zs "a") (Some (zs "x")) = Some [].
Proof.
  eexists _, _, _, _, _. split; [|split; [vm_compute; reflexivity|split; [reflexivity|split; [vm_compute; reflexivity|split; [vm_compute; reflexivity|split; [vm_compute; reflexivity|split; vm_compute; reflexivity]]]]]].
  repeat constructor; cbn; lia.
Qed.
(** Section names longer than the buffer are cut: two sections become one. *)
Theorem C65_long_refuted junk : exists ops db rs file db', Forall op_text ops /\
  ops = [CAddSection (zs "a") (Some (repeat 97 127 ++ [98])); CAddSection (zs "a") (Some (repeat 97 127 ++ [99]))] /\
  c_run junk [] (full ops) = Some (db, rs) /\ serialize db = Some file /\
  compact_parse junk [] file [] = Some (db', 0) /\ db' = [(Some (zs "a"), [(Some (repeat 97 127), [])])].
Proof.
  eexists _, _, _, _, _. split; [|split; [reflexivity|split; [vm_compute; reflexivity|split; [vm_compute; reflexivity|split; vm_compute; reflexivity]]]].
  repeat constructor; cbn; lia.
Qed.
(** A value with a line break becomes configuration of its own. *)
Theorem C65_injection_refuted junk : exists ops db rs file db', Forall op_text ops /\
  ops = [CSet (zs "a") None (zs "k") (zs "v" ++ [10] ++ zs "[plugin]" ++ [10] ++ zs "load evil") true true] /\
  c_run junk [] (full ops) = Some (db, rs) /\ serialize db = Some file /\
  compact_parse junk [] file [] = Some (db', 0) /\ find_section db (zs "plugin") None = None /\ reads db' (zs "plugin") None (zs "load") = Some (Some [zs "evil"]).
Proof.
  eexists _, _, _, _, _. split; [|split; [reflexivity|split; [vm_compute; reflexivity|split; [vm_compute; reflexivity|split; [vm_compute; reflexivity|split; vm_compute; reflexivity]]]]].
  repeat constructor; cbn; lia.
Qed.

Print Assumptions C66_meaning.
Print Assumptions C66_parse_partial.
Print Assumptions C66_ex.
Print Assumptions C66_no_value_refuted.
Print Assumptions C66_beyond_refuted.
Print Assumptions C65_round_trip_partial.
Print Assumptions C65_single_values.
Print Assumptions C65_ex.
Print Assumptions C65_order_refuted.
Print Assumptions C65_bracket_refuted.
Print Assumptions C65_long_refuted.
Print Assumptions C65_injection_refuted.
