(** Proofs about json.c. *)
From Verif Require Import Base BufLemmas StrBase StringSpec TemplateModel JsonModel JsonSpec.

(** ** The reader *)
Lemma j_mono : forall n,
  (forall s r, jvalue n s = Some r -> jvalue (S n) s = Some r) /\
  (forall s r, jmember n s = Some r -> jmember (S n) s = Some r) /\
  (forall s r, jelem n s = Some r -> jelem (S n) s = Some r).
Proof.
  induction n as [|n (IV & IM & IE)]; [split; [|split]; intros s r H; discriminate|].
  split; [|split]; intros s res H.
  - cbn [jvalue] in H. remember (S n) as m. cbn [jvalue]. destruct (jskip s) as [|c r]; [discriminate|].
    destruct (c =? 123).
    { destruct (jskip r) as [|d r']; [discriminate|]. destruct (d =? 125); [exact H|].
      destruct (jmember n (d :: r')) as [(l, q)|] eqn:E; [|discriminate]. subst m. now rewrite (IM _ _ E). }
    destruct (c =? 91).
    { destruct (jskip r) as [|d r']; [discriminate|]. destruct (d =? 93); [exact H|].
      destruct (jelem n (d :: r')) as [(l, q)|] eqn:E; [|discriminate]. subst m. now rewrite (IE _ _ E). }
    exact H.
  - cbn [jmember] in H. remember (S n) as m. cbn [jmember]. destruct (jskip s) as [|c r]; [discriminate|].
    destruct (c =? 34); [|discriminate]. destruct (jstring r) as [(k, r1)|]; [|discriminate].
    destruct (jskip r1) as [|d r2]; [discriminate|]. destruct (d =? 58); [|discriminate].
    destruct (jvalue n r2) as [(v, r3)|] eqn:E; [|discriminate]. subst m. rewrite (IV _ _ E).
    destruct (jskip r3) as [|e r4]; [discriminate|]. destruct (e =? 125); [exact H|]. destruct (e =? 44); [|discriminate].
    destruct (jmember n r4) as [(l, q)|] eqn:E2; [|discriminate]. now rewrite (IM _ _ E2).
  - cbn [jelem] in H. remember (S n) as m. cbn [jelem].
    destruct (jvalue n s) as [(v, r3)|] eqn:E; [|discriminate]. subst m. rewrite (IV _ _ E).
    destruct (jskip r3) as [|e r4]; [discriminate|]. destruct (e =? 93); [exact H|]. destruct (e =? 44); [|discriminate].
    destruct (jelem n r4) as [(l, q)|] eqn:E2; [|discriminate]. now rewrite (IE _ _ E2).
Qed.
Lemma jvalue_mono n m s r : (n <= m)%nat -> jvalue n s = Some r -> jvalue m s = Some r.
Proof. intros L H. induction L as [|m L IH]; auto. now apply j_mono. Qed.
Lemma jmember_mono n m s r : (n <= m)%nat -> jmember n s = Some r -> jmember m s = Some r.
Proof. intros L H. induction L as [|m L IH]; auto. now apply j_mono. Qed.
Lemma jelem_mono n m s r : (n <= m)%nat -> jelem n s = Some r -> jelem m s = Some r.
Proof. intros L H. induction L as [|m L IH]; auto. now apply j_mono. Qed.
Lemma reads_intro n s v r : jvalue n s = Some (v, r) -> jskip r = [] -> reads s v.
Proof.
  intros H R. split; [eauto|]. intros m v' r' H'.
  pose proof (jvalue_mono n (Nat.max n m) s _ (Nat.le_max_l _ _) H) as A.
  pose proof (jvalue_mono m (Nat.max n m) s _ (Nat.le_max_r _ _) H') as B. congruence.
Qed.

(** strings *)
Lemma jstring_plain k r : plain_key k -> jstring (k ++ 34 :: r) = Some (k, r).
Proof.
  induction 1 as [|c k (C1 & C2 & C3) K IH]; [reflexivity|]. cbn [app jstring].
  destruct (Z.eqb_spec c 34); [contradiction|]. destruct (Z.eqb_spec c 92); [contradiction|].
  destruct (Z.ltb_spec c 32); [lia|]. now rewrite IH.
Qed.
Lemma unhex_hexd v : 0 <= v < 16 -> unhex (hexd v) = Some v.
Proof.
  intros H. unfold hexd, unhex. destruct (Z.ltb_spec v 10).
  - destruct (Z.leb_spec 48 (48 + v)); [|lia]. destruct (Z.leb_spec (48 + v) 57); [|lia]. cbn. f_equal. lia.
  - destruct (Z.leb_spec 48 (87 + v)); [|lia]. destruct (Z.leb_spec (87 + v) 57); [lia|]. cbn [andb].
    destruct (Z.leb_spec 97 (87 + v)); [|lia]. destruct (Z.leb_spec (87 + v) 102); [|lia]. cbn. f_equal. lia.
Qed.
Lemma jstring_escape v r : Forall is_u8 v -> jstring (flat_map json_escape v ++ 34 :: r) = Some (v, r).
Proof.
  induction 1 as [|c v C V IH]; [reflexivity|]. cbn [flat_map]. rewrite <- app_assoc. unfold is_u8 in C.
  unfold json_escape at 1. destruct (printable c) eqn:P; cbn [negb].
  - unfold printable in P. apply negb_true_iff in P. apply orb_false_iff in P. destruct P as (P & _).
    apply orb_false_iff in P. destruct P as (P & _). apply Z.ltb_ge in P.
    destruct (Z.eqb_spec c 92) as [->|N1]; cbn [orb].
    { cbn [app jstring]. change (92 =? 34) with false. change (92 =? 92) with true. change (92 =? 117) with false. cbn iota.
      change (jshort 92) with (Some 92). cbn iota. now rewrite IH. }
    destruct (Z.eqb_spec c 34) as [->|N2].
    { cbn [app jstring]. change (92 =? 34) with false. change (92 =? 92) with true. change (34 =? 117) with false. cbn iota.
      change (jshort 34) with (Some 34). cbn iota. now rewrite IH. }
    cbn [app jstring]. destruct (Z.eqb_spec c 34); [contradiction|]. destruct (Z.eqb_spec c 92); [contradiction|].
    destruct (Z.ltb_spec c 32); [lia|]. now rewrite IH.
  - change (zs "\u00") with [92; 117; 48; 48]. unfold hex2. cbn [app jstring].
    change (92 =? 34) with false. change (92 =? 92) with true. change (117 =? 117) with true.
    change (48 =? 48) with true. cbn [andb].
    rewrite unhex_hexd by (split; [apply Z.div_pos; lia|apply Z.div_lt_upper_bound; lia]).
    rewrite unhex_hexd by (apply Z.mod_pos_bound; lia). rewrite IH. cbn [jadd].
    do 3 f_equal. pose proof (Z.div_mod c 16). lia.
Qed.

(** tokens end at characters that do not belong to them *)
Definition delim (r : bytes) : Prop := match r with [] => True | c :: _ => jtokc c = false end.
Lemma take_tok v r : forallb jtokc v = true -> delim r -> take_while jtokc (v ++ r) = v /\ drop_while jtokc (v ++ r) = r.
Proof.
  induction v as [|c v IH]; cbn [forallb app].
  - intros _ D. destruct r as [|d r]; [auto|]. cbn in D. cbn [take_while drop_while]. now rewrite D.
  - intros H D. apply andb_true_iff in H. destruct H as (Hc & Hv). cbn [take_while drop_while]. rewrite Hc.
    destruct (IH Hv D) as (-> & ->). auto.
Qed.
Lemma tokc_facts c : jtokc c = true -> jws c = false /\ (c =? 123) = false /\ (c =? 91) = false /\ (c =? 34) = false /\
  json_escape c = [c].
Proof.
  intros H. assert (43 <= c <= 122 /\ c <> 91 /\ c <> 92) as (R & N1 & N2).
  { unfold jtokc, isdigit in H. repeat rewrite orb_true_iff in H. repeat rewrite andb_true_iff in H.
    repeat rewrite Z.leb_le in H. repeat rewrite Z.eqb_eq in H. lia. }
  unfold jws, json_escape, printable.
  destruct (Z.eqb_spec c 32); [lia|]. destruct (Z.eqb_spec c 9); [lia|]. destruct (Z.eqb_spec c 10); [lia|]. destruct (Z.eqb_spec c 13); [lia|].
  destruct (Z.eqb_spec c 123); [lia|]. destruct (Z.eqb_spec c 91); [lia|]. destruct (Z.eqb_spec c 34); [lia|].
  destruct (Z.ltb_spec c 32); [lia|]. destruct (Z.eqb_spec c 127); [lia|]. destruct (Z.eqb_spec c 255); [lia|].
  destruct (Z.eqb_spec c 92); [lia|]. cbn. auto 7.
Qed.
Lemma escape_tok v : forallb jtokc v = true -> flat_map json_escape v = v.
Proof.
  induction v as [|c v IH]; cbn [forallb flat_map]; auto. intros H. apply andb_true_iff in H. destruct H as (Hc & Hv).
  destruct (tokc_facts c Hc) as (_ & _ & _ & _ & ->). rewrite IH; auto.
Qed.
Lemma jskip_cons c r : jws c = false -> jskip (c :: r) = c :: r.
Proof. intros H. unfold jskip. cbn [drop_while]. now rewrite H. Qed.
Lemma jskip_ws c r : jws c = true -> jskip (c :: r) = jskip r.
Proof. intros H. unfold jskip. cbn [drop_while]. now rewrite H. Qed.

Lemma token_value v r n : v <> [] -> jtoken v = true -> forallb jtokc v = true -> delim r ->
  jvalue (S n) (v ++ r) = Some (JToken v, r).
Proof.
  intros N T C D. destruct v as [|c v]; [contradiction|]. cbn [forallb] in C. apply andb_true_iff in C. destruct C as (Hc & Hv).
  destruct (tokc_facts c Hc) as (W & E1 & E2 & E3 & _).
  cbn [jvalue app]. rewrite jskip_cons by exact W. rewrite E1, E2, E3.
  destruct (take_tok (c :: v) r) as (T1 & T2); [cbn; now rewrite Hc, Hv|exact D|]. cbn [app] in *. rewrite T1, T2, T. reflexivity.
Qed.
Lemma value_reads string v r n : val_ok string v -> delim r -> jvalue (S n) (printvalue v string ++ r) = Some (jval string v, r).
Proof.
  intros OK D. unfold printvalue, jval, val_ok in *. destruct string.
  - cbn [app jvalue]. rewrite jskip_cons by reflexivity. change (34 =? 123) with false. change (34 =? 91) with false. change (34 =? 34) with true.
    cbn iota. rewrite <- app_assoc. cbn [app]. rewrite jstring_escape by exact OK. reflexivity.
  - destruct v as [|c v].
    + cbn [flat_map]. apply (token_value [48] r n); auto. discriminate.
    + destruct OK as [OK|(T & C)]; [discriminate|]. cbn [app]. rewrite escape_tok by exact C. rewrite app_nil_r.
      apply token_value; auto. discriminate.
Qed.

(** ** The writer as text *)
Fixpoint itxt (e : bool) (i : jitem) : bytes :=
  match i with
  | IPrint k s v => (if e then [] else [44]) ++ [34] ++ k ++ zs """:" ++ printvalue v s
  | ITemplates d => (if e then [10] else [44; 10]) ++ add_template_txt d true
  | IObject n l => (if e then [] else [44]) ++ [34] ++ n ++ zs """: {" ++ itxts true l ++ [125]
  | IArray n l => (if e then [] else [44]) ++ [34] ++ n ++ zs """: [" ++ otxts true l ++ [93]
  end
with itxts (e : bool) (l : jitems) : bytes :=
  match l with INil => [] | ICons i l => itxt e i ++ itxts false l end
with otxts (e : bool) (l : jobjs) : bytes :=
  match l with ONil => [] | OCons o l => (if e then [] else [44]) ++ [123] ++ itxts true o ++ [125] ++ otxts false l end.
Definition emp (l : jitems) (e : bool) : bool := match l with INil => e | _ => false end.
Definition empo (l : jobjs) (e : bool) : bool := match l with ONil => e | _ => false end.

Scheme jitem_ind3 := Induction for jitem Sort Prop
  with jitems_ind3 := Induction for jitems Sort Prop
  with jobjs_ind3 := Induction for jobjs Sort Prop.
Combined Scheme jitem_mut from jitem_ind3, jitems_ind3, jobjs_ind3.

Lemma jrun_app a b s : jrun (a ++ b) s = jrun b (jrun a s).
Proof. unfold jrun. apply fold_left_app. Qed.
Lemma written :
  (forall i o e, jrun (calls i) {| j_out := o; j_empty := e |} = {| j_out := o ++ itxt e i; j_empty := false |}) /\
  (forall l o e, jrun (callss l) {| j_out := o; j_empty := e |} = {| j_out := o ++ itxts e l; j_empty := emp l e |}) /\
  (forall l o e, jrun (callso l) {| j_out := o; j_empty := e |} = {| j_out := o ++ otxts e l; j_empty := empo l e |}).
Proof.
  apply jitem_mut.
  - reflexivity.
  - reflexivity.
  - intros n l IH o e. cbn [calls]. change (jrun (CStartObject (Some n) :: callss l ++ [CEndObject]) {| j_out := o; j_empty := e |})
      with (jrun (callss l ++ [CEndObject]) (start_object {| j_out := o; j_empty := e |} (Some n))).
    rewrite jrun_app. unfold start_object, jputs. cbn [j_out j_empty]. rewrite IH. cbn. unfold end_object, jputs. cbn [j_out].
    f_equal. cbn [itxt]. repeat (rewrite <- !app_assoc; cbn [app]). reflexivity.
  - intros n l IH o e. cbn [calls]. change (jrun (CStartArray n :: callso l ++ [CEndArray]) {| j_out := o; j_empty := e |})
      with (jrun (callso l ++ [CEndArray]) (start_array {| j_out := o; j_empty := e |} n)).
    rewrite jrun_app. unfold start_array, jputs. cbn [j_out j_empty]. rewrite IH. cbn. unfold end_array, jputs. cbn [j_out].
    f_equal. cbn [itxt]. repeat (rewrite <- !app_assoc; cbn [app]). reflexivity.
  - intros o e. cbn. now rewrite app_nil_r.
  - intros i IHi l IHl o e. cbn [callss]. rewrite jrun_app, IHi, IHl. cbn [itxts emp]. rewrite <- app_assoc. f_equal. now destruct l.
  - intros o e. cbn. now rewrite app_nil_r.
  - intros it IHi l IHl o e. cbn [callso].
    change (jrun (CStartObject None :: callss it ++ CEndObject :: callso l) {| j_out := o; j_empty := e |})
      with (jrun (callss it ++ CEndObject :: callso l) (start_object {| j_out := o; j_empty := e |} None)).
    rewrite jrun_app. unfold start_object, jputs. cbn [j_out j_empty]. rewrite IHi.
    change (jrun (CEndObject :: callso l)) with (fun s => jrun (callso l) (end_object s)). cbn beta.
    unfold end_object, jputs. cbn [j_out]. rewrite IHl. cbn [otxts empo]. f_equal; [|now destruct l].
    repeat (rewrite <- !app_assoc; cbn [app]). reflexivity.
Qed.

(** ** Reading what was written *)
(** the rest behind a value: end of the object or array, or a comma *)
Definition more (r : bytes) : Prop := exists c q, r = c :: q /\ (c = 44 \/ c = 125 \/ c = 93).
Lemma more_delim r : more r -> delim r.
Proof. intros (c & q & -> & [->|[->| ->]]); reflexivity. Qed.

(** [tail] continues a member: it is the end of the object or a comma and more members *)
Definition cont (tail : bytes) (ms : list (bytes * json)) (rest : bytes) : Prop :=
  (tail = 125 :: rest /\ ms = []) \/
  (exists q n, tail = 44 :: q /\ jmember n q = Some (ms, rest)).
Lemma cont_more tail ms rest : cont tail ms rest -> more tail.
Proof. intros [(-> & _)|(q & n & -> & _)]; eexists _, _; split; eauto. Qed.

Lemma member_step k sp vt v tail ms rest :
  plain_key k -> Forall (fun c => jws c = true) sp ->
  (forall r, more r -> exists n, jvalue n (sp ++ vt ++ r) = Some (v, r)) -> cont tail ms rest ->
  exists n, jmember n ([34] ++ k ++ [34; 58] ++ sp ++ vt ++ tail) = Some ((k, v) :: ms, rest).
Proof.
  intros K W V C. destruct (V tail (cont_more _ _ _ C)) as (n1 & V1).
  assert (exists n2, forall n, (n2 <= n)%nat -> match jskip tail with
     | [] => None
     | c :: r => if c =? 125 then Some ([(k, v)], r)
                 else if c =? 44 then match jmember n r with Some (l, r) => Some ((k, v) :: l, r) | None => None end else None end
     = Some ((k, v) :: ms, rest)) as (n2 & T).
  { destruct C as [(-> & ->)|(q & n & -> & M)].
    - exists O. intros n _. rewrite jskip_cons by reflexivity. reflexivity.
    - exists n. intros n' L. rewrite jskip_cons by reflexivity. change (44 =? 125) with false. change (44 =? 44) with true. cbn iota.
      now rewrite (jmember_mono n n' _ _ L M). }
  exists (S (Nat.max n1 n2)). cbn [app jmember]. rewrite jskip_cons by reflexivity. change (34 =? 34) with true. cbn iota.
  rewrite (jstring_plain k _ K). rewrite jskip_cons by reflexivity. change (58 =? 58) with true. cbn iota.
  rewrite (jvalue_mono n1 (Nat.max n1 n2) _ _ (Nat.le_max_l _ _) V1). apply T. apply Nat.le_max_r.
Qed.
Lemma skip_lead q : jskip (10 :: q) = jskip q. Proof. reflexivity. Qed.
Lemma jmember_ws n q r : jmember n (10 :: q) = r -> jmember n q = r.
Proof. destruct n; auto. Qed.
Lemma jmember_ws' n q : jmember n (10 :: q) = jmember n q.
Proof. destruct n; auto. Qed.

Lemma templates_read : forall d, Forall entry_ok d -> forall tail ms rest, cont tail ms rest ->
  (forall first, (first = true -> exists e, In e d /\ te_value e <> None) ->
   if first then exists n, jmember n (add_template_txt d true ++ tail) = Some (tvals d ++ ms, rest)
   else cont (add_template_txt d false ++ tail) (tvals d ++ ms) rest).
Proof.
  induction 1 as [|e d (K & V) D IH]; intros tail ms rest C first F.
  - destruct first; [destruct (F eq_refl) as (e & [] & _)|exact C].
  - cbn [add_template_txt tvals flat_map]. fold (tvals d). destruct (te_value e) as [v|] eqn:E.
    + assert (exists n, jmember n (([34] ++ te_key e ++ zs """:" ++ printvalue v (te_string e) ++ add_template_txt d false) ++ tail) =
        Some ((te_key e, jval (te_string e) v) :: tvals d ++ ms, rest)) as (n & M).
      { destruct (member_step (te_key e) [] (printvalue v (te_string e)) (jval (te_string e) v)
           (add_template_txt d false ++ tail) (tvals d ++ ms) rest K (Forall_nil _)) as (n & M).
        - intros r R. exists 1%nat. cbn [app]. apply value_reads; [now apply V|now apply more_delim].
        - apply (IH tail ms rest C false). discriminate.
        - exists n. rewrite <- M. f_equal. change (zs """:") with [34; 58]. cbn [app]. repeat (rewrite <- !app_assoc; cbn [app]). reflexivity. }
      cbn [app] in *. destruct first.
      * exists n. exact M.
      * right. eexists _, n. split; [reflexivity|]. rewrite jmember_ws'. exact M.
    + cbn [app]. apply (IH tail ms rest C first). intros Q. destruct (F Q) as (x & [<-|X] & Y); [contradiction|eauto].
Qed.

(** elements of an array *)
Definition conto (tail : bytes) (vs : list json) (rest : bytes) : Prop :=
  (tail = 93 :: rest /\ vs = []) \/ (exists q n, tail = 44 :: q /\ jelem n q = Some (vs, rest)).

(** a structure read as a whole: after its opening bracket *)
Lemma object_body l ms rest body : (* body is itxts true l ++ 125 :: rest *)
  (l = INil /\ body = 125 :: rest /\ ms = []) \/
  (exists n, jmember n body = Some (ms, rest)) ->
  exists n, jvalue n (123 :: body) = Some (JObject ms, rest).
Proof.
  intros [(-> & -> & ->)|(n & M)].
  - exists 1%nat. reflexivity.
  - exists (S n). cbn [jvalue]. rewrite jskip_cons by reflexivity. change (123 =? 123) with true. cbn iota.
    assert (exists d r', jskip body = d :: r' /\ (d =? 125) = false /\ jmember n (d :: r') = jmember n body) as (d & r' & E1 & E2 & E3).
    { destruct n as [|n]; [discriminate|]. cbn [jmember] in M. destruct (jskip body) as [|d r'] eqn:E; [discriminate|].
      exists d, r'. split; auto. assert (jws d = false) as Wd.
      { clear - E. unfold jskip in E. revert E. induction body as [|c body IH]; cbn; [discriminate|].
        destruct (jws c) eqn:W; auto. intros [= -> _]. exact W. }
      split.
      - destruct (Z.eqb_spec d 34); [subst; reflexivity|discriminate].
      - cbn [jmember]. rewrite jskip_cons by exact Wd. now rewrite E. }
    rewrite E1, E2, E3, M. reflexivity.
Qed.

Lemma read_back :
  (forall i, item_ok i -> forall tail ms rest, cont tail ms rest ->
     (exists n, jmember n (itxt true i ++ tail) = Some (meaning i ++ ms, rest)) /\
     cont (itxt false i ++ tail) (meaning i ++ ms) rest) /\
  (forall l, items_ok l -> forall tail ms rest, cont tail ms rest ->
     (l = INil \/ exists n, jmember n (itxts true l ++ tail) = Some (meanings l ++ ms, rest)) /\
     cont (itxts false l ++ tail) (meanings l ++ ms) rest) /\
  (forall l, objs_ok l -> forall rest,
     (l = ONil \/ exists n, jelem n (otxts true l ++ 93 :: rest) = Some (meaningo l, rest)) /\
     conto (otxts false l ++ 93 :: rest) (meaningo l) rest).
Proof.
  assert (forall it, (forall tail ms rest, cont tail ms rest ->
     (it = INil \/ exists n, jmember n (itxts true it ++ tail) = Some (meanings it ++ ms, rest)) /\
     cont (itxts false it ++ tail) (meanings it ++ ms) rest) ->
     forall r, exists n, jvalue n (123 :: itxts true it ++ 125 :: r) = Some (JObject (meanings it), r)) as OBJ.
  { intros it H r. apply (object_body it). destruct (H (125 :: r) [] r) as ([->|M] & _); [left; auto| |].
    - left. cbn. auto.
    - right. rewrite app_nil_r in M. exact M. }
  apply jitem_mut.
  - intros k s v (K & V) tail ms rest C. cbn [itxt meaning].
    destruct (member_step k [] (printvalue v s) (jval s v) tail ms rest K (Forall_nil _)) as (n & M); auto.
    { intros r R. exists 1%nat. cbn [app]. apply value_reads; [exact V|now apply more_delim]. }
    assert (jmember n (([34] ++ k ++ zs """:" ++ printvalue v s) ++ tail) = Some ([(k, jval s v)] ++ ms, rest)) as M'.
    { rewrite <- app_assoc. cbn [app] in *. rewrite <- app_assoc. change (zs """:") with [34; 58]. cbn [app]. exact M. }
    cbn [app] in *. split; [eauto|]. right. eauto.
  - intros d (D & F) tail ms rest C. cbn [itxt meaning].
    destruct (templates_read d D tail ms rest C true (fun _ => F)) as (n & M). cbn [app]. split.
    + exists n. rewrite jmember_ws'. exact M.
    + right. eexists _, n. split; [reflexivity|]. rewrite jmember_ws'. exact M.
  - intros nm l IH (K & L) tail ms rest C. specialize (IH L). cbn [itxt meaning].
    destruct (member_step nm [32] ([123] ++ itxts true l ++ [125]) (JObject (meanings l)) tail ms rest K) as (n & M); auto.
    { intros r R. destruct (OBJ l IH r) as (n & M). exists (S n). apply (j_mono n) in M. 
      cbn [app]. rewrite <- app_assoc. cbn [app]. rewrite <- M. reflexivity. }
    assert (jmember n (([34] ++ nm ++ zs """: {" ++ itxts true l ++ [125]) ++ tail) = Some ([(nm, JObject (meanings l))] ++ ms, rest)) as M'.
    { cbn [app] in *. rewrite <- M. do 2 f_equal. change (zs """: {") with [34; 58; 32; 123]. cbn [app]. repeat (rewrite <- !app_assoc; cbn [app]). reflexivity. }
    cbn [app] in *. split; [eauto|]. right. eauto.
  - intros nm l IH (K & L) tail ms rest C. specialize (IH L). cbn [itxt meaning].
    destruct (member_step nm [32] ([91] ++ otxts true l ++ [93]) (JArray (meaningo l)) tail ms rest K) as (n & M); auto.
    { intros r R. destruct (IH r) as ([->|(n & M)] & _).
      - exists 1%nat. reflexivity.
      - exists (S n). cbn [app]. rewrite <- app_assoc. cbn [app]. cbn [jvalue]. rewrite jskip_ws by reflexivity. rewrite jskip_cons by reflexivity.
        change (91 =? 123) with false. change (91 =? 91) with true. cbn iota.
        assert (exists q, otxts true l ++ 93 :: r = 123 :: q) as (q & E).
        { destruct l as [|o l]; [destruct n as [|[|n]]; cbn in M; discriminate|]. cbn [otxts app]. eauto. }
        rewrite E in *. rewrite jskip_cons by reflexivity. change (123 =? 93) with false. cbn iota. rewrite M. reflexivity. }
    assert (jmember n (([34] ++ nm ++ zs """: [" ++ otxts true l ++ [93]) ++ tail) = Some ([(nm, JArray (meaningo l))] ++ ms, rest)) as M'.
    { cbn [app] in *. rewrite <- M. do 2 f_equal. change (zs """: [") with [34; 58; 32; 91]. cbn [app]. repeat (rewrite <- !app_assoc; cbn [app]). reflexivity. }
    cbn [app] in *. split; [eauto|]. right. eauto.
  - intros _ tail ms rest C. split; [auto|]. exact C.
  - intros i IHi l IHl (OI & OL) tail ms rest C. cbn [itxts meanings].
    destruct (IHl OL tail ms rest C) as (_ & C2). destruct (IHi OI _ _ _ C2) as ((n & M) & C3).
    rewrite <- !app_assoc. split; [right; eauto|exact C3].
  - intros _ rest. split; [auto|]. left. auto.
  - intros it IHi l IHl (OI & OL) rest. cbn [otxts meaningo]. specialize (IHi OI).
    destruct (IHl OL rest) as (_ & C).
    assert (exists n, jelem n (123 :: itxts true it ++ 125 :: otxts false l ++ 93 :: rest) = Some (JObject (meanings it) :: meaningo l, rest)) as (n & M).
    { destruct (OBJ it IHi (otxts false l ++ 93 :: rest)) as (n1 & V1).
      destruct C as [(E & ->)|(q & n2 & E & M2)].
      - rewrite E in *. exists (S n1). cbn [jelem]. rewrite V1. rewrite jskip_cons by reflexivity. reflexivity.
      - rewrite E in *. exists (S (Nat.max n1 n2)). cbn [jelem]. rewrite (jvalue_mono n1 _ _ _ (Nat.le_max_l _ _) V1).
        rewrite jskip_cons by reflexivity. change (44 =? 93) with false. change (44 =? 44) with true. cbn iota.
        now rewrite (jelem_mono n2 _ _ _ (Nat.le_max_r _ _) M2). }
    assert (([123] ++ itxts true it ++ [125] ++ otxts false l) ++ 93 :: rest = 123 :: itxts true it ++ 125 :: otxts false l ++ 93 :: rest) as E.
    { cbn [app]. rewrite <- app_assoc. reflexivity. }
    cbn [app] in *. rewrite E. split; [right; eauto|]. right. eauto.
Qed.
