(** Theorems about template.c: C34, C35. *)
From Verif Require Import Base BitsModel BufLemmas SplitLemmas StrBase StringModel StringSpec TemplateModel TemplateSpec TemplateProofs.

(** every format has one meaning *)
Theorem C34_meaning_unique : forall data sh f out n out' n',
  Subst data sh f out n -> Subst data sh f out' n' -> out = out' /\ n = n'.
Proof. intros. eapply Subst_fun; eauto. Qed.
(** C34: initialisation and output give the format with every known key
    replaced; nothing else is changed *)
Theorem C34_substitution : forall data f st keys, template_init data (Some f) = Some st ->
  exists out n, Subst data (show keys) f out n /\ add_template st keys = Some out.
Proof.
  intros data f st keys H. unfold template_init in H.
  destruct (template_main data (length f) f (le_n _) [] 0) as (k & l & Lk & I & A). cbn [app] in *.
  specialize (I []). change (zlen []) with 0 in I. rewrite I in H.
  destruct (A keys) as (out & S1 & A1). specialize (A1 [] [] [] eq_refl). cbn [app] in A1. change (zlen []) with 0 in A1.
  destruct (Z.leb_spec (0 + k) TEMPLATE_MAX_KEYS).
  - injection H as <-. exists out, k. split; auto.
  - unfold TEMPLATE_MAX_KEYS in *. destruct (Z.eqb_spec k 0); [lia|discriminate].
Qed.
(** without a format the values are separated by tabs *)
Theorem C34_default_format : forall data st keys, template_init data None = Some st -> data <> [] ->
  add_template st keys = Some (tabbed (map (show keys) data)).
Proof.
  intros data st keys H N. unfold template_init in H. rewrite default_idx_spec in H. cbn [app] in H.
  destruct data as [|d data]; [contradiction|]. clear N. pose proof (zlen_nonneg data). rewrite zlen_cons in H.
  destruct (_ <=? _); [|destruct (Z.eqb_spec (zlen data + 1) 0); [lia|discriminate]].
  injection H as <-. cbn [map set_first ti_data ti_end]. unfold add_template. cbn [fst snd].
  destruct data as [|e data].
  - cbn. unfold show, show_value. destruct keys; reflexivity.
  - cbn [map]. cbn [set_last]. cbn [add_loop ti_start ti_end ti_data].
    change (0 <? 0) with false. cbn iota.
    pose proof (default_add keys data e) as D. cbn [map set_last] in D. rewrite D.
    cbn [map tabbed app]. f_equal. unfold show, show_value. destruct keys; reflexivity.
Qed.
Definition ex_data : list tentry :=
  [{| te_key := zs "if"; te_value := Some (zs "eth0"); te_string := true |};
   {| te_key := zs "cost"; te_value := Some (zs "12"); te_string := false |};
   {| te_key := zs "none"; te_value := None; te_string := false |}].
Example C34_ex : exists st, template_init ex_data (Some (zs "a\%if%if% 100% of %cost% %none%%x%%cost")) = Some st /\
  add_template st false = Some (zs "a\%ifeth0 100% of %cost% %none%%x%%cost") /\ add_template st true = Some (zs "a\%ifif 100% of %cost% %none%%x%%cost").
Proof. eexists. split; [vm_compute; reflexivity|]. split; vm_compute; reflexivity. Qed.
Example C34_ex2 : exists st, template_init ex_data (Some (zs "[%if%] %cost%%none% %x%")) = Some st /\
  add_template st false = Some (zs "[eth0] 12 %x%") /\ template_init ex_data None <> None.
Proof. eexists. split; [vm_compute; reflexivity|]. split; [vm_compute; reflexivity|vm_compute; discriminate]. Qed.

(** C35: the claim is false for formats with more than 64 keys *)
Theorem C35_overrun_refuted : exists data f, no_nul f /\ template_init data (Some f) = None.
Proof.
  exists [{| te_key := [97]; te_value := Some [98]; te_string := true |}], (concat (repeat [37; 97; 37] 65)).
  split; [|vm_compute; reflexivity].
  apply Forall_forall. intros x H. apply in_concat in H. destruct H as (l & L & X). apply repeat_spec in L. subst l.
  cbn in X. intros ->. destruct X as [X|[X|[X|[]]]]; discriminate.
Qed.
(** also the default format overruns the storage if there are more than 64 entries *)
Theorem C35_default_overrun_refuted : exists data, template_init data None = None.
Proof. exists (repeat {| te_key := [97]; te_value := Some [98]; te_string := true |} 65). vm_compute. reflexivity. Qed.
(** exactly the formats with at most 64 keys are stored safely, one entry per key *)
Theorem C35_storage_partial : forall data f keys, exists out n, Subst data (show keys) f out n /\
  match template_init data (Some f) with
  | Some st => n <= TEMPLATE_MAX_KEYS /\ zlen (snd st) = n
  | None => TEMPLATE_MAX_KEYS < n
  end.
Proof.
  intros data f keys. destruct (template_main data (length f) f (le_n _) [] 0) as (k & l & Lk & I & A). cbn [app] in *.
  specialize (I []). change (zlen []) with 0 in I. destruct (A keys) as (out & S1 & _). exists out, k. split; auto.
  unfold template_init. rewrite I. destruct (Z.leb_spec (0 + k) TEMPLATE_MAX_KEYS).
  - cbn [snd]. split; [lia|exact Lk].
  - unfold TEMPLATE_MAX_KEYS in *. destruct (Z.eqb_spec k 0); lia.
Qed.
Theorem C35_default_storage_partial : forall data, zlen data <= TEMPLATE_MAX_KEYS -> template_init data None <> None.
Proof.
  intros data L. unfold template_init. rewrite default_idx_spec. change (zlen []) with 0.
  destruct (Z.leb_spec (0 + zlen data) TEMPLATE_MAX_KEYS); [discriminate|lia].
Qed.
Example C35_ex : zlen ex_data <= TEMPLATE_MAX_KEYS /\ template_init ex_data (Some (zs "%if%%cost%")) <> None.
Proof. split; vm_compute; discriminate. Qed.

Print Assumptions C34_meaning_unique.
Print Assumptions C34_substitution.
Print Assumptions C34_default_format.
Print Assumptions C35_overrun_refuted.
Print Assumptions C35_default_overrun_refuted.
Print Assumptions C35_storage_partial.
Print Assumptions C35_default_storage_partial.
