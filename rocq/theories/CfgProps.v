(** C53: the configuration database is a map from section types, section names
    and entry names, compared without case, to lists of values. *)
From Verif Require Import Base BitsModel StrBase StringModel CfgModel CfgSpec CfgTree CfgProofs CfgCopy.

(** Every history of operations: no fault; the results are those of the map, and
    what is read afterwards are its values.  Operations without enough memory
    return an error and change nothing; missing is the operation which replaces
    the values of an entry while there is no memory for the new one
    ([no_lost]; see C53_lost_refuted). *)
Theorem C53_map_partial junk ops : Forall (fun p => op_text (snd p) /\ no_lost (fst p) (snd p)) ops ->
  exists db rs a, c_run junk [] ops = Some (db, rs) /\ a_run a_empty ops rs a /\ agrees db a.
Proof.
  intros F. destruct (run_okay junk ops [] a_empty wf_empty agrees_empty F) as (db & rs & a & E & R & _ & A). eauto 6.
Qed.

(** With enough memory the map is a function of the operations. *)
Fixpoint a_results (a : acfg) (ops : list cop) : acfg * list Z :=
  match ops with
  | [] => (a, [])
  | o :: ops' => let '(a1, r) := a_step a o in let '(a2, rs) := a_results a1 ops' in (a2, r :: rs)
  end.
Theorem C53_map junk ops : Forall op_text ops ->
  exists db, c_run junk [] (map (fun o => (all_mem, o)) ops) = Some (db, snd (a_results a_empty ops)) /\ agrees db (fst (a_results a_empty ops)).
Proof.
  intros F. destruct (C53_map_partial junk (map (fun o => (all_mem, o)) ops)) as (db & rs & a & E & R & A).
  { apply Forall_map. eapply Forall_impl; [|exact F]. intros o O. split; auto. destruct o; cbn; auto. now destruct append. }
  exists db. rewrite E. clear E F. revert rs a R A. generalize a_empty as a0. induction ops as [|o ops IH]; intros a0 rs a R A; cbn [map] in R.
  - inversion R; subst. auto.
  - inversion R as [|? ? ? a1 r ? rs' ? S R'|? ? ? ? ? ? ? M]; subst; [|now destruct M].
    cbn [a_results]. rewrite S. destruct (IH a1 rs' a R' A) as (E & A'). destruct (a_results a1 ops) as (a2, rs2). cbn [fst snd] in *.
    injection E as ->. auto.
Qed.

(** Lookups: the section, the section of the type without a name, the default of the schema. *)
Theorem C53_lookup junk ops db rs schema t n e : Forall op_text ops -> text t -> text_name n -> text e ->
  c_run junk [] (map (fun o => (all_mem, o)) ops) = Some (db, rs) ->
  match a_lookup (fst (a_results a_empty ops)) t n e with
  | Some l => exists v, get_value schema db t n e = Some v /\ strings v = Some l
  | None => get_value schema db t n e = match schema with None => None | Some f => f t e end
  end.
Proof.
  intros F T N E R. 
  destruct (run_okay junk (map (fun o => (all_mem, o)) ops) [] a_empty wf_empty agrees_empty) as (db1 & rs1 & a1 & E1 & _ & W & _).
  { apply Forall_map. eapply Forall_impl; [|exact F]. intros o O. split; auto. destruct o; cbn; auto. now destruct append. }
  destruct (C53_map junk ops F) as (db2 & E2 & A). rewrite R in E1, E2. injection E1 as <- <-. injection E2 as <- _.
  now apply lookup_okay.
Qed.

(** Copies: cfg_db_duplicate and cfg_db_copy* ([None] as a filter is everything). *)
Theorem C53_copy junk ft fn fe ops1 ops2 src dst rs1 rs2 : Forall op_text ops1 -> Forall op_text ops2 -> 
  text_name ft -> text_name fn -> text_name fe ->
  c_run junk [] (map (fun o => (all_mem, o)) ops1) = Some (src, rs1) ->
  c_run junk [] (map (fun o => (all_mem, o)) ops2) = Some (dst, rs2) ->
  exists dst', append_db junk dst ft fn fe src = Some dst' /\
    (forall t n, text t -> text_name n ->
      (if find_section dst' t n then true else false) = a_copy_sec (fst (a_results a_empty ops2)) (fst (a_results a_empty ops1)) ft fn t n) /\
    (forall t n e, text t -> text_name n -> text e ->
      reads dst' t n e = Some (a_copy_val (fst (a_results a_empty ops2)) (fst (a_results a_empty ops1)) ft fn fe t n e)).
Proof.
  intros F1 F2 FT FN FE R1 R2.
  assert (forall ops db rs, Forall op_text ops -> c_run junk [] (map (fun o => (all_mem, o)) ops) = Some (db, rs) -> wf db /\ agrees db (fst (a_results a_empty ops))) as G.
  { intros ops db rs F R. destruct (run_okay junk (map (fun o => (all_mem, o)) ops) [] a_empty wf_empty agrees_empty) as (db1 & rs1' & a1 & E1 & _ & W & _).
    { apply Forall_map. eapply Forall_impl; [|exact F]. intros o O. split; auto. destruct o; cbn; auto. now destruct append. }
    destruct (C53_map junk ops F) as (db2 & E2 & A). rewrite R in E1, E2. injection E1 as <- <-. injection E2 as <- _. auto. }
  destruct (G _ _ _ F1 R1) as (W1 & A1). destruct (G _ _ _ F2 R2) as (W2 & A2).
  destruct (copy_ok junk ft fn fe src _ dst _ FT FN FE W1 A1 W2 A2) as (dst' & d' & E & W' & (_ & A2' & A3') & S & V).
  exists dst'. split; auto. split.
  - intros t n T N. rewrite A2' by auto. auto.
  - intros t n e T N E'. rewrite A3' by auto. now rewrite V.
Qed.
Theorem C53_duplicate junk ops src rs : Forall op_text ops -> c_run junk [] (map (fun o => (all_mem, o)) ops) = Some (src, rs) ->
  exists dst, duplicate junk src = Some dst /\
    (forall t n, text t -> text_name n -> (if find_section dst t n then true else false) = (if find_section src t n then true else false)) /\
    (forall t n e, text t -> text_name n -> text e -> reads dst t n e = reads src t n e).
Proof.
  intros F R. destruct (C53_copy junk None None None ops [] src [] rs [] F (Forall_nil _) I I I R eq_refl) as (dst & E & S & V).
  destruct (C53_map junk ops F) as (db2 & E2 & _ & A2 & A3). rewrite R in E2. injection E2 as <- _. 
  exists dst. split; auto. split.
  - intros t n T N. rewrite S, A2 by auto. reflexivity.
  - intros t n e T N E'. rewrite V, A3 by auto. unfold a_copy_val. cbn [chosen andb a_results fst a_empty a_val values app].
    now destruct (a_val _ t n e).
Qed.

Example C53_ex :
  let ops := [CSet (zs "Interface") (Some (zs "eth0")) (zs "MTU") (zs "1500") false true;
              CSet (zs "interface") None (zs "bind") (zs "10.0.0.1") true true;
              CSet (zs "INTERFACE") (Some (zs "ETH0")) (zs "mtu") (zs "1280") true true;
              CSet (zs "interface") (Some (zs "eth0")) (zs "mtu") (zs "9000") true false;
              CRemoveElement (zs "interface") (Some (zs "eth0")) (zs "mtu") (zs "1500");
              CRemoveElement (zs "interface") (Some (zs "eth0")) (zs "mtu") (zs "1500")] in
  Forall op_text ops /\
  match c_run (fun _ => 7) [] (map (fun o => (all_mem, o)) ops) with
  | Some (db, rs) =>
    rs = [0; 0; 0; 0; 0; -1] /\
    reads db (zs "interface") (Some (zs "Eth0")) (zs "mtu") = Some (Some [zs "1280"; zs "9000"]) /\
    option_map strings (get_value None db (zs "interface") (Some (zs "Eth0")) (zs "BIND")) = Some (Some [zs "10.0.0.1"]) /\
    option_map (fun d => reads d (zs "interface") (Some (zs "Eth0")) (zs "mtu")) (duplicate (fun _ => 9) db) = Some (Some (Some [zs "1280"; zs "9000"]))
  | None => False
  end.
Proof.
  split.
  - repeat constructor; vm_compute; repeat constructor.
  - vm_compute. repeat split.
Qed.

(** cfg_db_overwrite_entry without memory for the new value: an error is
    returned, and the old value is lost; a following cfg_db_remove_element
    reads through the NULL pointer. *)
Theorem C53_lost_refuted : exists (m : mem) db t e v v',
  text t /\ text e /\ text v /\ text v' /\
  overwrite_entry all_mem (fun _ => 0) [] t None e v = Some (db, true) /\ reads db t None e = Some (Some [v]) /\
  exists db', overwrite_entry m (fun _ => 0) db t None e v' = Some (db', false) /\ reads db' t None e = Some (Some []) /\
  remove_element all_mem (fun _ => 0) db' t None e v = None.
Proof.
  exists {| ok_type := true; ok_name := true; ok_entry := true; ok_value := false |}. eexists. exists (zs "s"), (zs "e"), (zs "1"), (zs "2").
  repeat apply conj; try (vm_compute; repeat constructor; fail).
  eexists. repeat apply conj; vm_compute; reflexivity.
Qed.

(** cfg_db_add_entry ("appends an entry", cfg_db.h:412-424) puts the value in
    front of those of the list. *)
Theorem C53_add_order_refuted : exists t e v1 v2 db1 db2, v1 <> v2 /\
  add_entry all_mem (fun _ => 0) [] t None e v1 = Some (db1, true) /\
  add_entry all_mem (fun _ => 0) db1 t None e v2 = Some (db2, true) /\
  reads db2 t None e = Some (Some [v2; v1]) /\ reads db2 t None e <> Some (Some [v1; v2]).
Proof.
  exists (zs "s"), (zs "e"), (zs "1"), (zs "2"). do 2 eexists. repeat apply conj; try (vm_compute; reflexivity); vm_compute; discriminate.
Qed.

Print Assumptions C53_map_partial.
Print Assumptions C53_map.
Print Assumptions C53_lookup.
Print Assumptions C53_copy.
Print Assumptions C53_duplicate.
Print Assumptions C53_lost_refuted.
Print Assumptions C53_add_order_refuted.
