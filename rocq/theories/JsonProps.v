(** C36: the JSON generator (json.c). *)
From Verif Require Import Base StrBase TemplateModel JsonModel JsonSpec JsonProofs.

(** Every properly nested sequence of calls, of any depth and length, is read
    back by a JSON reader as the structure that was written, and in one way only. *)
Theorem C36_reads_back : forall l, items_ok l ->
  reads (j_out (jrun (CStartObject None :: callss l ++ [CEndObject]) json_init)) (JObject (meanings l)).
Proof.
  intros l OK.
  assert (j_out (jrun (CStartObject None :: callss l ++ [CEndObject]) json_init) = 123 :: itxts true l ++ [125]) as E.
  { change (jrun (CStartObject None :: callss l ++ [CEndObject]) json_init)
      with (jrun (callss l ++ [CEndObject]) {| j_out := [123]; j_empty := true |}).
    rewrite jrun_app. destruct written as (_ & W & _). rewrite W. reflexivity. }
  rewrite E. destruct read_back as (_ & R & _). destruct (R l OK [125] [] []) as (H & _); [left; auto|].
  rewrite app_nil_r in H.
  destruct (object_body l (meanings l) [] (itxts true l ++ [125])) as (n & V).
  - destruct H as [->|H]; [left; auto|right; exact H].
  - apply (reads_intro n _ _ [] V). reflexivity.
Qed.

(** Text that is not escaped by the generator: only string values are.  A key
    with a quotation mark makes the text unreadable... *)
Theorem C36_key_refuted : exists k v, val_ok true v /\
  forall j, ~ reads (j_out (jrun [CStartObject None; CPrint k true v; CEndObject] json_init)) j.
Proof.
  exists [97; 34; 98], [99]. split; [repeat constructor; unfold is_u8; lia|].
  intros j ((n & r & H & _) & _).
  apply (jvalue_mono n (Nat.max n 10) _ _ (Nat.le_max_l _ _)) in H.
  assert (forall m, jvalue (10 + m) (j_out (jrun [CStartObject None; CPrint [97; 34; 98] true [99]; CEndObject] json_init)) = None) as N.
  { intros m. vm_compute. reflexivity. }
  replace (Nat.max n 10) with (10 + (Nat.max n 10 - 10))%nat in H by lia. rewrite N in H. discriminate.
Qed.
(** ...and json_print_templates without any value leaves a comma behind the
    last member (json.c:155-167 separates first and finds no values later). *)
Theorem C36_templates_refuted : exists cs d, Forall entry_ok d /\
  forall j, ~ reads (j_out (jrun (CStartObject None :: cs ++ [CTemplates d; CEndObject]) json_init)) j.
Proof.
  exists [CPrint [97] false [49]], [{| te_key := [98]; te_value := None; te_string := true |}].
  split. { repeat constructor; cbn; try lia; discriminate. }
  intros j ((n & r & H & _) & _).
  apply (jvalue_mono n (Nat.max n 10) _ _ (Nat.le_max_l _ _)) in H.
  assert (forall m, jvalue (10 + m) (j_out (jrun (CStartObject None :: [CPrint [97] false [49]] ++ [CTemplates
     [{| te_key := [98]; te_value := None; te_string := true |}]; CEndObject]) json_init)) = None) as N.
  { intros m. vm_compute. reflexivity. }
  replace (Nat.max n 10) with (10 + (Nat.max n 10 - 10))%nat in H by lia. rewrite N in H. discriminate.
Qed.

Definition ex_item : jitems :=
  ICons (IPrint (zs "name") true [34; 92; 10; 200; 104])
 (ICons (IArray (zs "l") (OCons (ICons (IPrint (zs "v") false (zs "-1.5")) INil) (OCons INil ONil)))
 (ICons (IObject (zs "o") INil)
 (ICons (ITemplates [{| te_key := zs "x"; te_value := None; te_string := true |};
                     {| te_key := zs "y"; te_value := Some (zs "true"); te_string := false |}]) INil))).
Example C36_ex : items_ok ex_item /\
  j_out (jrun (CStartObject None :: callss ex_item ++ [CEndObject]) json_init) =
  zs "{""name"":""\""\\\u000a" ++ [200] ++ zs "h"",""l"": [{""v"":-1.5},{}],""o"": {}," ++ [10] ++ zs """y"":true}".
Proof.
  split; [|vm_compute; reflexivity].
  assert (forall k, forallb (fun c => (32 <=? c) && negb (c =? 34) && negb (c =? 92)) k = true -> plain_key k) as K.
  { intros k H. apply Forall_forall. intros c C. rewrite forallb_forall in H. specialize (H c C).
    repeat rewrite andb_true_iff in H. repeat rewrite negb_true_iff in H. repeat rewrite Z.eqb_neq in H. rewrite Z.leb_le in H. tauto. }
  unfold ex_item. cbn [items_ok item_ok objs_ok val_ok].
  split; [split; [apply K; reflexivity|repeat constructor; unfold is_u8; lia]|].
  split; [split; [apply K; reflexivity|]|].
  { split; [|auto]. split; [|auto]. split; [apply K; reflexivity|]. right. split; reflexivity. }
  split; [split; [apply K; reflexivity|exact I]|].
  split; [|exact I]. split.
  - constructor; [|constructor; [|constructor]]; (split; [apply K; reflexivity|]).
    + discriminate.
    + intros v [= <-]. right. split; reflexivity.
  - eexists. split; [right; left; reflexivity|discriminate].
Qed.

Print Assumptions C36_reads_back.
Print Assumptions C36_key_refuted.
Print Assumptions C36_templates_refuted.
