(** The parser of the compact format. *)
From Verif Require Import Base BitsModel StrBase BufLemmas SplitLemmas NetaddrModel StringModel StringSpec StringProofs CfgModel CfgSpec CfgTree CfgProofs CompactModel CompactSpec.

Ltac spl := repeat (rewrite <- app_assoc || cbn [app]); try reflexivity.

(** * Memory *)
Lemma skip_split f a c : forall pre post p, p = zlen pre -> Forall (fun x => f x = true) a -> f c = false ->
  skip f (pre ++ a ++ c :: post) p = Some (p + zlen a).
Proof.
  intros pre post p -> F C. unfold skip. pose proof (zlen_nonneg pre). destruct (Z.ltb_spec (zlen pre) 0); [lia|].
  unfold zlen at 1. rewrite Nat2Z.id, skipn_app, skipn_all, Nat.sub_diag. cbn [skipn app].
  assert (skip_from f (a ++ c :: post) = Some (zlen a)) as ->; auto.
  induction F as [|x a X F IH]; cbn [app skip_from].
  - now rewrite C.
  - rewrite X, IH, zlen_cons. reflexivity.
Qed.
Lemma cstr_split a s c p : p = zlen a -> no_nul s -> cstr_at (a ++ s ++ 0 :: c) p = Some s.
Proof.
  intros E N. unfold cstr_at. rewrite (strlen_split a s c p E N). replace (Z.to_nat (zlen s)) with (length s) by (unfold zlen; lia).
  now apply copy_out_split.
Qed.
Lemma repeat_head n (post : bytes) : repeat 0 n ++ 0 :: post = 0 :: repeat 0 n ++ post.
Proof. induction n; cbn; auto. now rewrite IHn. Qed.
Lemma trim_back_ok pre u0 c : isspace c = false -> forall sp post, Forall (fun x => isspace x = true) sp ->
  trim_back (length ((u0 ++ [c]) ++ sp)) (pre ++ (u0 ++ [c]) ++ sp ++ post) (zlen pre) = Some (pre ++ (u0 ++ [c]) ++ repeat 0 (length sp) ++ post).
Proof.
  intros C sp. induction sp as [|d sp IH] using rev_ind; intros post F.
  - rewrite app_nil_r, app_length, Nat.add_1_r. cbn [trim_back repeat length app]. destruct (length u0) as [|k] eqn:L; auto.
    assert (zget (pre ++ (u0 ++ [c]) ++ post) (zlen pre + Z.of_nat (S k)) = Some c) as ->.
    { replace (pre ++ (u0 ++ [c]) ++ post) with ((pre ++ u0) ++ c :: post) by spl. apply zget_split. rewrite zlen_app. unfold zlen. lia. }
    now rewrite C.
  - apply Forall_app in F as (F & D). inversion D as [|? ? D1]; subst.
    rewrite app_assoc, app_length, Nat.add_1_r. cbn [trim_back].
    destruct (length ((u0 ++ [c]) ++ sp)) as [|k] eqn:L. { rewrite !app_length in L. cbn in L. lia. }
    assert (Z.of_nat (S k) = zlen (u0 ++ [c]) + zlen sp) as LL by (rewrite <- L, app_length; unfold zlen; lia).
    rewrite <- (app_assoc sp). cbn [app].
    replace (pre ++ (u0 ++ [c]) ++ sp ++ d :: post) with ((pre ++ (u0 ++ [c]) ++ sp) ++ d :: post) by spl.
    rewrite zget_split by (rewrite !zlen_app, LL, zlen_app; lia). rewrite D1. rewrite zset_split by (rewrite !zlen_app, LL, zlen_app; lia).
    replace ((pre ++ (u0 ++ [c]) ++ sp) ++ 0 :: post) with (pre ++ (u0 ++ [c]) ++ sp ++ 0 :: post) by spl.
    rewrite (IH (0 :: post) F). rewrite app_length, Nat.add_1_r. cbn [repeat]. 
    now rewrite repeat_head.
Qed.
(** after trimming there is the trimmed text with a NUL behind it; the length is the same *)
Lemma trim_at_ok pre s post p t : p = zlen pre -> no_nul s -> trimmed s t ->
  exists lead tail, trim_at (pre ++ s ++ 0 :: post) p = Some (pre ++ lead ++ t ++ 0 :: tail ++ post, p + zlen lead) /\
    zlen lead + zlen t + zlen tail = zlen s.
Proof.
  intros -> N (a & b & -> & Fa & Fb & H1 & H2).
  apply Forall_app in N as (Na & N). apply Forall_app in N as (Nt & Nb).
  unfold trim_at. destruct t as [|c0 t0].
  - cbn [app]. exists (a ++ b), [].
    replace (pre ++ (a ++ b) ++ 0 :: post) with (pre ++ (a ++ b) ++ 0 :: post) by reflexivity.
    rewrite (skip_split isspace (a ++ b) 0 pre post _ eq_refl); [|apply Forall_app; auto|reflexivity].
    replace (pre ++ (a ++ b) ++ 0 :: post) with ((pre ++ (a ++ b)) ++ [] ++ 0 :: post) by spl.
    rewrite (strlen_split (pre ++ a ++ b) [] post); [|rewrite !zlen_app; lia|constructor]. cbn [zlen length Z.of_nat Z.to_nat trim_back].
    split; [|rewrite zlen_nil; lia]. f_equal. f_equal. spl.
  - destruct (@exists_last _ (c0 :: t0) ltac:(discriminate)) as (u0 & c & E).
    assert (isspace c = false) as C by (eapply H2; eauto).
    exists a, (repeat 0 (length b)).
    assert (skip isspace (pre ++ (a ++ (c0 :: t0) ++ b) ++ 0 :: post) (zlen pre) = Some (zlen pre + zlen a)) as ->.
    { replace (pre ++ (a ++ (c0 :: t0) ++ b) ++ 0 :: post) with (pre ++ a ++ c0 :: (t0 ++ b ++ 0 :: post)) by spl.
      apply skip_split; auto. eapply H1; eauto. }
    replace (pre ++ (a ++ (c0 :: t0) ++ b) ++ 0 :: post) with ((pre ++ a) ++ ((c0 :: t0) ++ b) ++ 0 :: post) by spl.
    rewrite (strlen_split (pre ++ a) ((c0 :: t0) ++ b) post); [|now rewrite zlen_app|apply Forall_app; auto].
    replace (Z.to_nat (zlen ((c0 :: t0) ++ b))) with (length ((c0 :: t0) ++ b)) by (unfold zlen; lia). rewrite E.
    replace ((pre ++ a) ++ ((u0 ++ [c]) ++ b) ++ 0 :: post) with ((pre ++ a) ++ (u0 ++ [c]) ++ b ++ 0 :: post) by (now rewrite <- !app_assoc).
    rewrite <- zlen_app. rewrite (trim_back_ok (pre ++ a) u0 c C b (0 :: post) Fb). split.
    + f_equal. f_equal. rewrite repeat_head. now rewrite <- !app_assoc.
    + rewrite !zlen_app. unfold zlen. rewrite repeat_length. lia.
Qed.
Lemma strchr_found pre a c post p : p = zlen pre -> no_nul a -> ~ In c a -> strchr (pre ++ a ++ c :: post) p c = Some (Some (p + zlen a)).
Proof.
  intros -> N I. unfold strchr. rewrite (skip_split _ a c pre post _ eq_refl).
  - replace (pre ++ a ++ c :: post) with ((pre ++ a) ++ c :: post) by spl. rewrite zget_split by (now rewrite zlen_app). now rewrite Z.eqb_refl.
  - apply Forall_forall. intros x X. unfold no_nul in N. rewrite Forall_forall in N. specialize (N x X).
    destruct (Z.eqb_spec x 0); [easy|]. destruct (Z.eqb_spec x c); [subst; easy|]. reflexivity.
  - now rewrite Z.eqb_refl, andb_false_r.
Qed.
Lemma strchr_none pre a c post p : p = zlen pre -> no_nul a -> ~ In c a -> c <> 0 -> strchr (pre ++ a ++ 0 :: post) p c = Some None.
Proof.
  intros -> N I C. unfold strchr. rewrite (skip_split _ a 0 pre post _ eq_refl).
  - replace (pre ++ a ++ 0 :: post) with ((pre ++ a) ++ 0 :: post) by spl. rewrite zget_split by (now rewrite zlen_app).
    destruct (Z.eqb_spec 0 c); [congruence|]. reflexivity.
  - apply Forall_forall. intros x X. unfold no_nul in N. rewrite Forall_forall in N. specialize (N x X).
    destruct (Z.eqb_spec x 0); [easy|]. destruct (Z.eqb_spec x c); [subst; easy|]. reflexivity.
  - reflexivity.
Qed.

(** * Names *)
Lemma ident_allowed s : allowed_key s = ident s.
Proof.
  unfold allowed_key, ident. destruct s as [|c s]; auto.
  assert (forall x, key_char x = ident_char x) as KC.
  { intros x. unfold key_char, ident_char. destruct (x =? 95), ((48 <=? x) && (x <=? 57)), ((97 <=? x) && (x <=? 122)), ((65 <=? x) && (x <=? 90)); reflexivity. }
  assert (forallb key_char (c :: s) = forallb ident_char (c :: s)) as ->.
  { induction (c :: s) as [|x l IH]; auto. cbn. now rewrite KC, IH. }
  destruct ((48 <=? c) && (c <=? 57)); cbn [negb]; [now rewrite andb_false_r|now rewrite andb_true_r].
Qed.
Lemma allowed_name_ok s : allowed_name s = true <-> no_space s.
Proof.
  unfold allowed_name, no_space. rewrite negb_true_iff. split.
  - intros E I. assert (existsb (fun c => c =? 32) s = true); [|congruence]. apply existsb_exists. exists 32. split; auto.
  - intros H. apply not_true_is_false. intros E. apply existsb_exists in E as (x & I & X). apply Z.eqb_eq in X. now subst.
Qed.
Lemma cut_nil s : cut s = [] <-> s = [].
Proof. unfold cut. destruct s; split; auto; discriminate. Qed.
Lemma name_ptr_cut n : name_ptr (cut n) = match n with [] => None | _ => Some (cut n) end.
Proof. destruct n; reflexivity. Qed.

(** * A line *)
Definition buffers (s : pstate) (cur : place) : Prop :=
  match cur with
  | None => p_section s = []
  | Some (t, n) => p_section s = t /\ t <> [] /\ text t /\ text_name n /\ name_ptr (p_name s) = n
  end.
Definition withm (s : pstate) (m : bytes) : pstate := {| p_mem := m; p_section := p_section s; p_name := p_name s; p_db := p_db s |}.
Lemma trimmed_text l t : trimmed l t -> text l -> text t.
Proof. intros (a & b & -> & _) T. apply Forall_app in T as (_ & T). now apply Forall_app in T as (T & _). Qed.
Lemma trimmed_nul l t : trimmed l t -> no_nul l -> no_nul t.
Proof. intros (a & b & -> & _) T. apply Forall_app in T as (_ & T). now apply Forall_app in T as (T & _). Qed.
Lemma cut_text s : text s -> text (cut s).
Proof. unfold cut, text. intros F. rewrite <- (firstn_skipn 127 s) in F. now apply Forall_app in F as (F & _). Qed.

(** the end of the parsing of a section line *)
Definition section_end (s : pstate) (m5 : bytes) (type : bytes) (nm : option bytes) : option (pstate * Z) :=
  if zlen type =? 0 then Some ({| p_mem := m5; p_section := p_section s; p_name := p_name s; p_db := p_db s |}, -1)
  else
    let section := scpy type in
    let name := match nm with None => [] | Some x => scpy x end in
    let s5 := {| p_mem := m5; p_section := section; p_name := name; p_db := p_db s |} in
    if negb (allowed_key section) then Some (s5, -1)
    else if negb (zlen name =? 0) && negb (allowed_name name) then Some (s5, -1)
    else
      let '(db', ok, _) := add_section all_mem (p_db s) section (name_ptr name) in
      Some ({| p_mem := m5; p_section := section; p_name := name; p_db := db' |}, if ok then 0 else -1).

Definition after (junk : nat -> Z) (s : pstate) (pre : bytes) (len : Z) (post : bytes) (cur' : place) (ops : list cop) (r : Z) (o : option (pstate * Z)) : Prop :=
  exists s' rs mid, o = Some (s', r) /\ c_run junk (p_db s) (map (fun o => (all_mem, o)) ops) = Some (p_db s', rs) /\
    p_mem s' = pre ++ mid ++ post /\ zlen mid = len + 1 /\ (r = 0 -> buffers s' cur').

Lemma section_end_ok junk s a m5 t nm n cl cur cur' ops r pre mid post len : nm = None /\ n = [] \/ nm = Some n ->
  text t -> text n -> head t n cl -> wf (p_db s) -> agrees (p_db s) a -> one_line cur cl = Some (cur', ops, r) ->
  m5 = pre ++ mid ++ post -> zlen mid = len + 1 -> after junk s pre len post cur' ops r (section_end s m5 t nm).
Proof.
  intros NM T N H W A O M L.
  assert (match nm with None => [] | Some x => scpy x end = cut n) as EN. { destruct NM as [(-> & ->)| ->]; reflexivity. }
  unfold section_end. rewrite EN. change (scpy t) with (cut t). rewrite ident_allowed. inversion H as [t0 n0 T0 I S|n0|t0 n0 T0 I|t0 n0 T0 I S]; subst; cbn [one_line] in O; injection O as <- <- <-.
  - destruct (Z.eqb_spec (zlen t) 0) as [Z0|Z0]; [now apply zlen_zero in Z0|]. rewrite I. cbn [negb].
    rewrite (proj2 (allowed_name_ok _) S). cbn [negb]. rewrite andb_false_r.
    destruct (add_section all_mem (p_db s) (cut t) (name_ptr (cut n))) as [[db' ok] new] eqn:AD.
    assert (text_name (name_ptr (cut n))) as TN. { rewrite name_ptr_cut. destruct n; cbn; auto. now apply (cut_text (z :: n)). }
    destruct (add_ok _ _ _ _ _ _ _ _ W A (cut_text _ T) TN AD) as (_ & [(R & _)|(X & _)]); [|now destruct X].
    cbn [a_step] in R. injection R as R. destruct ok; [|discriminate].
    rewrite <- name_ptr_cut. do 3 eexists. split; [reflexivity|]. split; [cbn [map c_run c_step]; rewrite AD; reflexivity|].
    split; [reflexivity|]. split; [exact L|]. intros _. cbn [buffers p_section p_name].
    split; auto. split. { intros X; apply (proj1 (cut_nil t)) in X; contradiction. } split; [now apply cut_text|]. split; auto.
  - change (zlen (@nil Z) =? 0) with true. cbn match. do 3 eexists. split; [reflexivity|]. split; [reflexivity|]. split; [reflexivity|]. split; [exact L|]. discriminate.
  - destruct (Z.eqb_spec (zlen t) 0) as [Z0|Z0]; [now apply zlen_zero in Z0|]. rewrite I. cbn [negb].
    do 3 eexists. split; [reflexivity|]. split; [reflexivity|]. split; [reflexivity|]. split; [exact L|]. discriminate.
  - destruct (Z.eqb_spec (zlen t) 0) as [Z0|Z0]; [now apply zlen_zero in Z0|]. rewrite I. cbn [negb].
    assert (allowed_name (cut n) = false) as AF. { apply not_true_is_false. intros X. now apply S, allowed_name_ok. }
    rewrite AF. destruct (Z.eqb_spec (zlen (cut n)) 0) as [Z1|Z1].
    { apply zlen_zero in Z1. rewrite Z1 in S. destruct S. intros []. }
    cbn [negb andb]. do 3 eexists. split; [reflexivity|]. split; [reflexivity|]. split; [reflexivity|]. split; [exact L|]. discriminate.
Qed.

Lemma zget_head pre c (post : bytes) p : p = zlen pre -> zget (pre ++ c :: post) p = Some c.
Proof. apply zget_split. Qed.

Lemma line_ok junk s a pre l post cl cur cur' ops r : p_mem s = pre ++ l ++ 0 :: post -> text l -> means l cl -> buffers s cur ->
  wf (p_db s) -> agrees (p_db s) a -> one_line cur cl = Some (cur', ops, r) ->
  after junk s pre (zlen l) post cur' ops r (parse_line junk s (zlen pre)).
Proof.
  intros M T MN B W A O. pose proof (text_nonul _ T) as N. unfold parse_line. rewrite M.
  assert (forall t, trimmed l t -> exists lead tail, trim_at (pre ++ l ++ 0 :: post) (zlen pre) = Some ((pre ++ lead) ++ t ++ 0 :: tail ++ post, zlen (pre ++ lead)) /\
     zlen lead + zlen t + zlen tail = zlen l) as TR.
  { intros t Ht. destruct (trim_at_ok pre l post _ t eq_refl N Ht) as (lead & tail & E & L). exists lead, tail. rewrite E, zlen_app. split; auto. f_equal. f_equal. spl. }
  destruct MN as [l Ht|l r0 Ht|l r0 Ht NI|l ty rest t cl Ht NI NE Hty HD|l ty nm rest t n cl Ht NI NI2 NE Hty Hnm HD|l k sp r0 v Ht PL WD SP Hv|l k Ht PL WD];
    destruct (TR _ Ht) as (lead & tail & -> & L); clear TR; cbn zeta.
  - cbn [app]. rewrite zget_head by reflexivity. cbn [one_line] in O. injection O as <- <- <-. change ((0 =? 0) || (0 =? 35)) with true. cbn match.
    exists (withm s ((pre ++ lead) ++ 0 :: tail ++ post)), [], (lead ++ 0 :: tail). split; [reflexivity|]. split; [reflexivity|]. split; [cbn; spl|].
    split; [|auto]. rewrite zlen_app, zlen_cons. rewrite zlen_nil in L. lia.
  - cbn [app]. rewrite zget_head by reflexivity. cbn [one_line] in O. injection O as <- <- <-. change ((35 =? 0) || (35 =? 35)) with true. cbn match.
    exists (withm s ((pre ++ lead) ++ 35 :: r0 ++ 0 :: tail ++ post)), [], (lead ++ 35 :: r0 ++ 0 :: tail). split; [reflexivity|]. split; [reflexivity|]. split; [cbn; spl|].
    split; [|auto]. rewrite zlen_app, zlen_cons, zlen_app, zlen_cons. rewrite zlen_cons in L. lia.
  - cbn [app]. rewrite zget_head by reflexivity. cbn [one_line] in O. injection O as <- <- <-. change ((91 =? 0) || (91 =? 35)) with false. change (91 =? 91) with true. cbn match.
    pose proof (trimmed_nul _ _ Ht N) as N1. inversion N1 as [|? ? _ N2]; subst.
    replace ((pre ++ lead) ++ 91 :: r0 ++ 0 :: tail ++ post) with (((pre ++ lead) ++ [91]) ++ r0 ++ 0 :: tail ++ post) by spl.
    rewrite (strchr_none ((pre ++ lead) ++ [91]) r0 93) by (auto; rewrite ?zlen_app; easy).
    exists (withm s (((pre ++ lead) ++ [91]) ++ r0 ++ 0 :: tail ++ post)), [], (lead ++ 91 :: r0 ++ 0 :: tail). split; [reflexivity|]. split; [reflexivity|]. split; [cbn; spl|].
    split; [|discriminate]. rewrite zlen_app, zlen_cons, zlen_app, zlen_cons. rewrite zlen_cons in L. lia.
  - cbn [app]. rewrite zget_head by reflexivity. change ((91 =? 0) || (91 =? 35)) with false. change (91 =? 91) with true. cbn match.
    pose proof (trimmed_nul _ _ Ht N) as N1. inversion N1 as [|? ? _ N2]; subst. apply Forall_app in N2 as (N2 & _).
    pose proof (trimmed_text _ _ Ht T) as T1. inversion T1 as [|? ? _ T2]; subst. apply Forall_app in T2 as (T2 & _).
    set (P := (pre ++ lead) ++ [91]). assert (zlen (pre ++ lead) + 1 = zlen P) as -> by (unfold P; rewrite (zlen_app (pre ++ lead) [91]); reflexivity).
    replace ((pre ++ lead) ++ 91 :: (ty ++ 93 :: rest) ++ 0 :: tail ++ post) with (P ++ ty ++ 93 :: (rest ++ 0 :: tail ++ post)) by (unfold P; spl).
    rewrite (strchr_found P ty 93) by auto.
    replace (P ++ ty ++ 93 :: (rest ++ 0 :: tail ++ post)) with ((P ++ ty) ++ 93 :: (rest ++ 0 :: tail ++ post)) by spl.
    rewrite zset_split by (rewrite !zlen_app; lia).
    replace ((P ++ ty) ++ 0 :: (rest ++ 0 :: tail ++ post)) with (P ++ ty ++ 0 :: (rest ++ 0 :: tail ++ post)) by spl.
    rewrite (strchr_none P ty 61) by (auto; discriminate). cbn match.
    destruct (trim_at_ok P ty (rest ++ 0 :: tail ++ post) _ t eq_refl N2 Hty) as (lead2 & tail2 & -> & L2).
    replace (P ++ lead2 ++ t ++ 0 :: tail2 ++ rest ++ 0 :: tail ++ post) with ((P ++ lead2) ++ t ++ 0 :: tail2 ++ rest ++ 0 :: tail ++ post) by spl.
    rewrite (cstr_split (P ++ lead2) t) by (rewrite ?zlen_app; eauto using trimmed_nul).
    eapply (section_end_ok junk s a _ t None []); eauto.
    + eapply trimmed_text; eauto.
    + constructor.
    + instantiate (1 := lead ++ 91 :: lead2 ++ t ++ 0 :: tail2 ++ rest ++ 0 :: tail). unfold P. spl.
    + repeat (rewrite zlen_app || rewrite zlen_cons). repeat (rewrite zlen_app in L || rewrite zlen_cons in L). lia.
  - cbn [app]. rewrite zget_head by reflexivity. change ((91 =? 0) || (91 =? 35)) with false. change (91 =? 91) with true. cbn match.
    pose proof (trimmed_nul _ _ Ht N) as N1. inversion N1 as [|? ? _ N2]; subst. apply Forall_app in N2 as (N2 & N3). inversion N3 as [|? ? _ N4]; subst. apply Forall_app in N4 as (N4 & _).
    pose proof (trimmed_text _ _ Ht T) as T1. inversion T1 as [|? ? _ T2]; subst. apply Forall_app in T2 as (T2 & T3). inversion T3 as [|? ? _ T4]; subst. apply Forall_app in T4 as (T4 & _).
    set (P := (pre ++ lead) ++ [91]). assert (zlen (pre ++ lead) + 1 = zlen P) as -> by (unfold P; rewrite (zlen_app (pre ++ lead) [91]); reflexivity).
    set (X := rest ++ 0 :: tail ++ post).
    replace ((pre ++ lead) ++ 91 :: (ty ++ 61 :: nm ++ 93 :: rest) ++ 0 :: tail ++ post) with (P ++ (ty ++ 61 :: nm) ++ 93 :: X) by (unfold P, X; spl).
    assert (no_nul (ty ++ 61 :: nm)) as Nb. { apply Forall_app. split; auto. constructor; auto. lia. }
    rewrite (strchr_found P (ty ++ 61 :: nm) 93); auto.
    2:{ rewrite in_app_iff. cbn [In]. intros [I|[I|I]]; [auto|discriminate|auto]. }
    replace (P ++ (ty ++ 61 :: nm) ++ 93 :: X) with ((P ++ (ty ++ 61 :: nm)) ++ 93 :: X) by spl.
    rewrite zset_split by (rewrite !zlen_app; lia).
    replace ((P ++ (ty ++ 61 :: nm)) ++ 0 :: X) with (P ++ ty ++ 61 :: nm ++ 0 :: X) by spl.
    rewrite (strchr_found P ty 61) by auto.
    replace (P ++ ty ++ 61 :: nm ++ 0 :: X) with ((P ++ ty) ++ 61 :: nm ++ 0 :: X) by spl.
    rewrite zset_split by (rewrite !zlen_app; lia).
    replace ((P ++ ty) ++ 0 :: nm ++ 0 :: X) with (((P ++ ty) ++ [0]) ++ nm ++ 0 :: X) by spl.
    destruct (trim_at_ok ((P ++ ty) ++ [0]) nm X (zlen P + zlen ty + 1) n ltac:(rewrite !zlen_app; reflexivity) N4 Hnm) as (lead3 & tail3 & -> & L3).
    set (Y := lead3 ++ n ++ 0 :: tail3 ++ X).
    replace (((P ++ ty) ++ [0]) ++ Y) with (P ++ ty ++ 0 :: Y) by spl.
    destruct (trim_at_ok P ty Y _ t eq_refl N2 Hty) as (lead2 & tail2 & -> & L2).
    replace (P ++ lead2 ++ t ++ 0 :: tail2 ++ Y) with ((P ++ lead2) ++ t ++ 0 :: tail2 ++ Y) by spl.
    rewrite (cstr_split (P ++ lead2) t) by (rewrite ?zlen_app; eauto using trimmed_nul).
    assert (cstr_at ((P ++ lead2) ++ t ++ 0 :: tail2 ++ Y) (zlen P + zlen ty + 1 + zlen lead3) = Some n) as ->.
    { replace ((P ++ lead2) ++ t ++ 0 :: tail2 ++ Y) with ((P ++ lead2 ++ t ++ 0 :: tail2 ++ lead3) ++ n ++ 0 :: tail3 ++ X) by (unfold Y; spl).
      apply cstr_split; [|eauto using trimmed_nul]. repeat (rewrite zlen_app || rewrite zlen_cons). lia. }
    eapply (section_end_ok junk s a _ t (Some n) n); eauto.
    + eapply trimmed_text; eauto.
    + eapply trimmed_text; eauto.
    + instantiate (1 := lead ++ 91 :: lead2 ++ t ++ 0 :: tail2 ++ lead3 ++ n ++ 0 :: tail3 ++ rest ++ 0 :: tail). unfold Y, X, P. spl.
    + repeat (rewrite zlen_app || rewrite zlen_cons). repeat (rewrite zlen_app in L || rewrite zlen_cons in L). lia.
  - pose proof (trimmed_nul _ _ Ht N) as N1. apply Forall_app in N1 as (N2 & N3). inversion N3 as [|? ? _ N4]; subst.
    pose proof (trimmed_text _ _ Ht T) as T1. apply Forall_app in T1 as (T2 & T3). inversion T3 as [|? ? _ T4]; subst.
    destruct k as [|c k]; [easy|]. destruct PL as (C1 & C2). set (K := c :: k) in *.
    replace ((pre ++ lead) ++ (K ++ sp :: r0) ++ 0 :: tail ++ post) with ((pre ++ lead) ++ c :: (k ++ sp :: r0 ++ 0 :: tail ++ post)) by (unfold K; spl).
    rewrite zget_head by reflexivity.
    destruct (Z.eqb_spec c 0) as [C0|C0]. { inversion N2. easy. }
    destruct (Z.eqb_spec c 35) as [|_]; [easy|]. destruct (Z.eqb_spec c 91) as [|_]; [easy|]. cbn [orb]. cbn match.
    assert (zlen l + 1 = zlen (lead ++ c :: k ++ sp :: r0 ++ 0 :: tail)) as LL.
    { unfold K in L. repeat (rewrite zlen_app in * || rewrite zlen_cons in *). lia. }
    destruct cur as [(t, n)|]; cbn [one_line buffers] in O, B.
    + destruct B as (B1 & B2 & B3 & B4 & B5). rewrite B1. destruct (Z.eqb_spec (zlen t) 0) as [Z0|Z0]; [now apply zlen_zero in Z0|].
      set (P := pre ++ lead). set (X := tail ++ post).
      replace (P ++ c :: (k ++ sp :: r0 ++ 0 :: X)) with (P ++ K ++ sp :: (r0 ++ 0 :: X)) by (unfold K; spl).
      rewrite (skip_split _ K sp P (r0 ++ 0 :: X) _ eq_refl); [| |now rewrite SP].
      2:{ eapply Forall_impl; [|exact WD]. cbn. now intros x ->. }
      replace (P ++ K ++ sp :: (r0 ++ 0 :: X)) with ((P ++ K) ++ sp :: (r0 ++ 0 :: X)) by spl.
      rewrite zset_split by (rewrite !zlen_app; lia).
      replace ((P ++ K) ++ 0 :: (r0 ++ 0 :: X)) with (((P ++ K) ++ [0]) ++ r0 ++ 0 :: X) by spl.
      destruct (trim_at_ok ((P ++ K) ++ [0]) r0 X (zlen P + zlen K + 1) v ltac:(rewrite !zlen_app; reflexivity) N4 Hv) as (lead3 & tail3 & -> & L3).
      set (Y := lead3 ++ v ++ 0 :: tail3 ++ X).
      assert (cstr_at (((P ++ K) ++ [0]) ++ Y) (zlen P) = Some K) as ->.
      { replace (((P ++ K) ++ [0]) ++ Y) with (P ++ K ++ 0 :: Y) by spl. now apply cstr_split. }
      assert (cstr_at (((P ++ K) ++ [0]) ++ Y) (zlen P + zlen K + 1 + zlen lead3) = Some v) as ->.
      { replace (((P ++ K) ++ [0]) ++ Y) with ((((P ++ K) ++ [0]) ++ lead3) ++ v ++ 0 :: tail3 ++ X) by (unfold Y; spl).
        apply cstr_split; [|eauto using trimmed_nul]. rewrite !zlen_app. reflexivity. }
      assert (v <> []) as VN.
      { intros ->. destruct Ht as (a0 & b0 & _ & _ & _ & _ & EN). destruct Hv as (a1 & b1 & Er & Fa & Fb & _). cbn [app] in Er.
        destruct (@exists_last _ (sp :: r0) ltac:(discriminate)) as (u & x & E).
        assert (isspace x = true) as IX.
        { assert (Forall (fun y => isspace y = true) (sp :: r0)) as FF. { constructor; auto. rewrite Er. apply Forall_app; auto. }
          rewrite E in FF. apply Forall_app in FF as (_ & FF). now inversion FF. }
        rewrite (EN (K ++ u) x) in IX; [discriminate|]. rewrite E. spl. }
      destruct (Z.eqb_spec (zlen v) 0) as [Z1|Z1]; [now apply zlen_zero in Z1|]. rewrite ident_allowed.
      assert (((P ++ K) ++ [0]) ++ Y = pre ++ (lead ++ K ++ 0 :: lead3 ++ v ++ 0 :: tail3 ++ tail) ++ post) as EM by (unfold P, K, Y, X; spl).
      assert (zlen (lead ++ K ++ 0 :: lead3 ++ v ++ 0 :: tail3 ++ tail) = zlen l + 1) as EL.
      { repeat (rewrite zlen_app || rewrite zlen_cons). repeat (rewrite zlen_app in L || rewrite zlen_cons in L). lia. }
      rewrite EM. destruct (ident K) eqn:ID; cbn [negb]; injection O as <- <- <-.
      * rewrite B5. unfold add_entry. pose proof (trimmed_text _ _ Hv T4) as TV.
        destruct (set_ok all_mem junk (p_db s) a t n K v true true) as (d1 & ok & E1 & _ & [(R & _)|(X1 & _)]); auto; [|now destruct X1].
        cbn [a_step] in R. injection R as R. destruct ok; [|discriminate]. rewrite E1.
        do 3 eexists. split; [reflexivity|]. split; [cbn [map c_run c_step]; rewrite E1; reflexivity|]. split; [reflexivity|]. split; [exact EL|].
        intros _. cbn. auto 6.
      * do 3 eexists. split; [reflexivity|]. split; [reflexivity|]. split; [reflexivity|]. split; [exact EL|]. discriminate.
    + injection O as <- <- <-. rewrite B. change (zlen (@nil Z) =? 0) with true. cbn match.
      exists (withm s ((pre ++ lead) ++ c :: (k ++ sp :: r0 ++ 0 :: tail ++ post))), [], (lead ++ c :: k ++ sp :: r0 ++ 0 :: tail).
      split; [unfold withm; now rewrite B|]. split; [reflexivity|]. split; [cbn; spl|]. split; [auto|discriminate].
  - destruct cur as [(t, n)|]; cbn [one_line buffers] in O, B; [discriminate|]. injection O as <- <- <-.
    destruct k as [|c k]; [easy|]. destruct PL as (C1 & C2). pose proof (trimmed_nul _ _ Ht N) as N1.
    cbn [app]. rewrite zget_head by reflexivity.
    destruct (Z.eqb_spec c 0) as [C0|C0]. { inversion N1. easy. }
    destruct (Z.eqb_spec c 35) as [|_]; [easy|]. destruct (Z.eqb_spec c 91) as [|_]; [easy|]. cbn [orb]. cbn match.
    rewrite B. change (zlen (@nil Z) =? 0) with true. cbn match.
    exists (withm s ((pre ++ lead) ++ c :: (k ++ 0 :: tail ++ post))), [], (lead ++ c :: k ++ 0 :: tail).
    split; [unfold withm; now rewrite B|]. split; [reflexivity|]. split; [cbn; spl|]. split; [|discriminate].
    repeat (rewrite zlen_app || rewrite zlen_cons). repeat (rewrite zlen_app in L || rewrite zlen_cons in L). lia.
Qed.

(** * Files *)
Lemma head_text t n cl : text t -> text n -> head t n cl -> match cl with LSection t n => text t /\ text_name n | LEntry k v => text k /\ text v | _ => True end.
Proof.
  intros T N H. destruct H; auto. split; [now apply cut_text|]. destruct n; cbn; auto. now apply (cut_text (z :: n)).
Qed.
Lemma means_text l cl : text l -> means l cl -> match cl with LSection t n => text t /\ text_name n | LEntry k v => text k /\ text v | _ => True end.
Proof.
  intros T M. destruct M as [l Ht|l r0 Ht|l r0 Ht NI|l ty rest t cl Ht NI NE Hty HD|l ty nm rest t n cl Ht NI NI2 NE Hty Hnm HD|l k sp r0 v Ht PL WD SP Hv|l k Ht PL WD]; auto;
    pose proof (trimmed_text _ _ Ht T) as T1.
  - inversion T1 as [|? ? _ T2]; subst. apply Forall_app in T2 as (T2 & _). apply (head_text t [] cl); auto. eapply trimmed_text; eauto. constructor.
  - inversion T1 as [|? ? _ T2]; subst. apply Forall_app in T2 as (T2 & T3). inversion T3 as [|? ? _ T4]; subst. apply Forall_app in T4 as (T4 & _).
    apply (head_text t n cl); auto; eapply trimmed_text; eauto.
  - apply Forall_app in T1 as (T2 & T3). inversion T3 as [|? ? _ T4]; subst. split; auto. eapply trimmed_text; eauto.
Qed.
Lemma ops_text l cl s cur cur' ops r : text l -> means l cl -> buffers s cur -> one_line cur cl = Some (cur', ops, r) -> Forall op_text ops.
Proof.
  intros T M B O. pose proof (means_text l cl T M) as MT. destruct cl as [|t n|k v|k|]; cbn [one_line] in O.
  - injection O as <- <- <-. constructor.
  - injection O as <- <- <-. constructor; [exact MT|constructor].
  - destruct cur as [(t, n)|]; [|injection O as <- <- <-; constructor]. destruct B as (_ & _ & B1 & B2 & _). destruct (ident k); injection O as <- <- <-; [|constructor].
    constructor; [|constructor]. cbn. tauto.
  - destruct cur; [discriminate|]. injection O as <- <- <-. constructor.
  - injection O as <- <- <-. constructor.
Qed.
Lemma trimmed_cr l t : trimmed (l ++ [13]) t -> trimmed l t.
Proof.
  intros H. pose proof (trim_spec l) as T. assert (trimmed (l ++ [13]) (str_trim l)) as T'.
  { destruct T as (a & b & E & Fa & Fb & H1 & H2). exists a, (b ++ [13]). split; [rewrite E at 1; spl|]. split; auto. split; [apply Forall_app; auto|auto]. }
  now rewrite (trimmed_fun _ _ _ H T').
Qed.
Lemma means_cr l cl : means (l ++ [13]) cl -> means l cl.
Proof.
  remember (l ++ [13]) as l' eqn:E. intros M. destruct M as [l1 Ht|l1 r0 Ht|l1 r0 Ht NI|l1 ty rest t cl Ht NI NE Hty HD|l1 ty nm rest t n cl Ht NI NI2 NE Hty Hnm HD|l1 k sp r0 v Ht PL WD SP Hv|l1 k Ht PL WD];
    subst l1; apply trimmed_cr in Ht.
  - now apply m_blank.
  - eapply m_comment; eauto.
  - eapply m_open; eauto.
  - eapply m_section; eauto.
  - eapply m_named; eauto.
  - eapply m_entry; eauto.
  - eapply m_key; eauto.
Qed.
Lemma run_app junk ops1 : forall ops2 db db1 rs1, c_run junk db ops1 = Some (db1, rs1) ->
  c_run junk db (ops1 ++ ops2) = match c_run junk db1 ops2 with None => None | Some (db2, rs2) => Some (db2, rs1 ++ rs2) end.
Proof.
  induction ops1 as [|(m, o) ops1 IH]; intros ops2 db db1 rs1 E; cbn [c_run app] in *.
  - injection E as <- <-. destruct (c_run junk db ops2) as [(d, r)|]; reflexivity.
  - destruct (c_step m junk db o) as [(d, r)|]; [|discriminate]. destruct (c_run junk d ops1) as [(d1, r1)|] eqn:R; [|discriminate].
    injection E as <- <-. rewrite (IH ops2 _ _ _ R). destruct (c_run junk d1 ops2) as [(d2, r2)|]; reflexivity.
Qed.
Definition full (ops : list cop) := map (fun o => (all_mem, o)) ops.
Lemma full_okay junk ops db a : wf db -> agrees db a -> Forall op_text ops ->
  exists db' rs a', c_run junk db (full ops) = Some (db', rs) /\ wf db' /\ agrees db' a'.
Proof.
  intros W A F. destruct (run_okay junk (full ops) db a W A) as (db' & rs & a' & E & _ & W' & A'); eauto 6.
  apply Forall_map. eapply Forall_impl; [|exact F]. intros o O. split; auto. destruct o; cbn; auto. now destruct append.
Qed.

(** one round of the loop *)
Lemma round_ok junk s a done l c post cl cur cur' ops r : p_mem s = done ++ l ++ c :: post -> in_line l -> line_end c -> Forall is_u8 l ->
  means l cl -> buffers s cur -> wf (p_db s) -> agrees (p_db s) a -> one_line cur cl = Some (cur', ops, r) ->
  exists m2, 
   skip (fun x => negb (x =? 0) && negb (x =? 10)) (p_mem s) (zlen done) = Some (zlen done + zlen l) /\
   exists m1, zset (p_mem s) (zlen done + zlen l) 0 = Some m1 /\
   (if zlen done + zlen l >? zlen done then
      match zget m1 (zlen done + zlen l - 1) with
      | None => None
      | Some c => if c =? 13 then zset m1 (zlen done + zlen l - 1) 0 else Some m1
      end
    else Some m1) = Some m2 /\
   after junk (withm s m2) done (zlen l) post cur' ops r (parse_line junk (withm s m2) (zlen done)) /\ Forall op_text ops.
Proof.
  intros M IL LE U MN B W A O.
  assert (text l) as T.
  { apply Forall_forall. intros x X. unfold in_line in IL. rewrite Forall_forall in IL, U. specialize (IL x X). specialize (U x X).
    unfold is_u8 in U. unfold line_end in IL. lia. }
  assert (skip (fun x => negb (x =? 0) && negb (x =? 10)) (p_mem s) (zlen done) = Some (zlen done + zlen l)) as SK.
  { rewrite M. apply skip_split; auto.
    - eapply Forall_impl; [|exact IL]. cbn. intros x X. unfold line_end in X. destruct (Z.eqb_spec x 0); [lia|]. destruct (Z.eqb_spec x 10); [lia|]. reflexivity.
    - destruct LE as [-> | ->]; reflexivity. }
  assert (zset (p_mem s) (zlen done + zlen l) 0 = Some (done ++ l ++ 0 :: post)) as ST.
  { rewrite M. replace (done ++ l ++ c :: post) with ((done ++ l) ++ c :: post) by spl. rewrite zset_split by (rewrite zlen_app; lia). f_equal. spl. }
  assert (buffers (withm s (done ++ l ++ 0 :: post)) cur /\ forall m, buffers (withm s m) cur) as (_ & BW).
  { destruct cur as [(t, n)|]; split; intros; exact B. }
  destruct l as [|x0 l0] eqn:EL.
  - exists (done ++ [] ++ 0 :: post). split; auto. exists (done ++ [] ++ 0 :: post). split; auto. split.
    + rewrite zlen_nil, Z.add_0_r. rewrite Z.gtb_ltb, Z.ltb_irrefl. reflexivity.
    + split; [|eapply ops_text; eauto]. eapply line_ok; eauto.
  - rewrite <- EL in *. assert (l <> []) as NL by (subst; discriminate). clear EL x0 l0.
    destruct (exists_last NL) as (u & x & EL).
    assert (zlen done + zlen l >? zlen done = true) as GT. { rewrite EL, zlen_app, zlen_cons, zlen_nil. pose proof (zlen_nonneg u). lia. }
    assert (zget (done ++ l ++ 0 :: post) (zlen done + zlen l - 1) = Some x) as GX.
    { rewrite EL. replace (done ++ (u ++ [x]) ++ 0 :: post) with ((done ++ u) ++ x :: 0 :: post) by spl. apply zget_split. rewrite !zlen_app, zlen_cons, zlen_nil. lia. }
    destruct (Z.eqb_spec x 13) as [-> |NX].
    + exists (done ++ u ++ 0 :: 0 :: post). split; auto. exists (done ++ l ++ 0 :: post). split; auto. split; [|split].
      * rewrite GT, GX. change (13 =? 13) with true. cbn match. rewrite EL.
        replace (done ++ (u ++ [13]) ++ 0 :: post) with ((done ++ u) ++ 13 :: 0 :: post) by spl.
        rewrite zset_split by (rewrite !zlen_app, zlen_cons, zlen_nil; lia). f_equal. spl.
      * rewrite EL in MN. apply means_cr in MN. rewrite EL in T. apply Forall_app in T as (T & _).
        destruct (line_ok junk (withm s (done ++ u ++ 0 :: 0 :: post)) a done u (0 :: post) cl cur cur' ops r eq_refl T MN (BW _) W A O) as (s' & rs & mid & E1 & E2 & E3 & E4 & E5).
        exists s', rs, (mid ++ [0]). split; auto. split; auto. split; [rewrite E3; spl|]. split; auto.
        rewrite EL, !zlen_app, !zlen_cons, zlen_nil. lia.
      * eapply ops_text; eauto.
    + exists (done ++ l ++ 0 :: post). split; auto. exists (done ++ l ++ 0 :: post). split; auto. split; [|split].
      * rewrite GT, GX. destruct (Z.eqb_spec x 13); [easy|]. reflexivity.
      * eapply line_ok; eauto.
      * eapply ops_text; eauto.
Qed.

Lemma one_line_r cur cl cur' ops r : one_line cur cl = Some (cur', ops, r) -> r = 0 \/ r = -1 /\ ops = [].
Proof.
  destruct cl as [|t n|k v|k|]; cbn [one_line]; intros O.
  - injection O as <- <- <-. auto.
  - injection O as <- <- <-. auto.
  - destruct cur as [(t, n)|]; [|injection O as <- <- <-; auto]. destruct (ident k); injection O as <- <- <-; auto.
  - destruct cur; [discriminate|]. injection O as <- <- <-. auto.
  - injection O as <- <- <-. auto.
Qed.

Lemma file_ok junk content ls : Lines content ls -> forall cls, Forall2 means ls cls -> forall fuel s a done slack cur ops r,
  p_mem s = done ++ content ++ 0 :: slack -> (length content <= fuel)%nat -> Forall is_u8 content ->
  buffers s cur -> wf (p_db s) -> agrees (p_db s) a -> follow cur cls = Some (ops, r) ->
  exists s' rs, parse_lines fuel junk s (zlen done + zlen content) (zlen done) = Some (s', r) /\ c_run junk (p_db s) (full ops) = Some (p_db s', rs).
Proof.
  induction 1 as [|l NL IL|l c rest ls IL LE LN IH]; intros cls F2 fuel s a done slack cur ops r M FU U B W A FO.
  - inversion F2; subst. cbn [follow] in FO. injection FO as <- <-. exists s, []. rewrite zlen_nil, Z.add_0_r.
    destruct fuel; cbn [parse_lines]; rewrite Z.ltb_irrefl; auto.
  - inversion F2 as [|? cl ? ? MN F2']; subst. inversion F2'; subst. cbn [follow] in FO.
    destruct (one_line cur cl) as [[[cur' ops1] r1]|] eqn:O; [|discriminate].
    destruct (round_ok junk s a done l 0 slack cl cur cur' ops1 r1 M IL (or_introl eq_refl) U MN B W A O) as (m2 & SK & m1 & ST & CR & (s' & rs & mid & E1 & E2 & E3 & E4 & E5) & _).
    destruct fuel as [|fuel]. { destruct l; [easy|]. cbn in FU. lia. }
    assert (zlen done <? zlen done + zlen l = true) as LT. { destruct l; [easy|]. rewrite zlen_cons. pose proof (zlen_nonneg l). lia. }
    cbn [parse_lines]. rewrite LT, SK, ST, CR. change {| p_mem := m2; p_section := p_section s; p_name := p_name s; p_db := p_db s |} with (withm s m2). rewrite E1.
    destruct (one_line_r _ _ _ _ _ O) as [-> |(-> & ->)].
    + change (0 =? 0) with true in *. cbn match in *. injection FO as <- <-. exists s', rs. rewrite app_nil_r. split; auto.
      destruct fuel; cbn [parse_lines]; (destruct (Z.ltb_spec (zlen done + zlen l + 1) (zlen done + zlen l)); [lia|reflexivity]).
    + change (-1 =? 0) with false in *. cbn match in *. injection FO as <- <-. exists s', rs. auto.
  - inversion F2 as [|? cl ? cls' MN F2']; subst. cbn [follow] in FO.
    destruct (one_line cur cl) as [[[cur' ops1] r1]|] eqn:O; [|discriminate].
    apply Forall_app in U as (U1 & U2). inversion U2 as [|? ? _ U3]; subst.
    rewrite <- app_assoc in M. cbn [app] in M.
    destruct (round_ok junk s a done l c _ cl cur cur' ops1 r1 M IL LE U1 MN B W A O) as (m2 & SK & m1 & ST & CR & (s' & rs & mid & E1 & E2 & E3 & E4 & E5) & OT).
    rewrite app_length in FU. cbn in FU. destruct fuel as [|fuel]; [lia|].
    rewrite zlen_app, zlen_cons. pose proof (zlen_nonneg l). pose proof (zlen_nonneg rest).
    cbn [parse_lines]. destruct (Z.ltb_spec (zlen done) (zlen done + (zlen l + (zlen rest + 1)))); [|lia]. rewrite SK, ST, CR.
    change {| p_mem := m2; p_section := p_section s; p_name := p_name s; p_db := p_db s |} with (withm s m2). rewrite E1.
    destruct (one_line_r _ _ _ _ _ O) as [-> |(-> & ->)].
    + change (0 =? 0) with true in *. cbn match in *. destruct (follow cur' cls') as [(ops2, r2)|] eqn:FO2; [|discriminate]. injection FO as <- <-.
      destruct (full_okay junk ops1 (p_db s) a W A OT) as (d1 & rs1 & a1 & R1 & W1 & A1).
      change (p_db (withm s m2)) with (p_db s) in E2. unfold full in R1. rewrite E2 in R1. injection R1 as <- <-.
      destruct (IH cls' F2' fuel s' a1 (done ++ mid) slack cur' ops2 r2) as (s2 & rs2 & P2 & C2); auto; try lia.
      { rewrite E3. spl. }
      exists s2, (rs ++ rs2). split.
      * rewrite zlen_app, E4 in P2. replace (zlen done + (zlen l + (zlen rest + 1))) with (zlen done + (zlen l + 1) + zlen rest) by lia.
        replace (zlen done + zlen l + 1) with (zlen done + (zlen l + 1)) by lia. exact P2.
      * unfold full in *. rewrite map_app. rewrite (run_app junk _ _ _ _ _ E2). now rewrite C2.
    + change (-1 =? 0) with false in *. cbn match in *. injection FO as <- <-. exists s', rs. auto.
Qed.

(** every file has lines, and every line a meaning *)
Lemma lines_exist : forall n content, (length content <= n)%nat -> exists ls, Lines content ls.
Proof.
  induction n as [|n IH]; intros content L. { destruct content; [|cbn in L; lia]. exists []. constructor. }
  assert ((exists l c rest, content = l ++ c :: rest /\ in_line l /\ line_end c) \/ in_line content) as [(l & c & rest & -> & IL & LE)|IL].
  { clear. induction content as [|x content IH]; [right; constructor|]. destruct (Z.eq_dec x 0) as [X|X]; [left; exists [], x, content; unfold line_end; repeat split; auto; constructor|].
    destruct (Z.eq_dec x 10) as [Y|Y]; [left; exists [], x, content; unfold line_end; repeat split; auto; constructor|].
    assert (~ line_end x) as NX by (unfold line_end; lia).
    destruct IH as [(l & c & rest & -> & IL & LE)|IL]; [left; exists (x :: l), c, rest; repeat split; auto; constructor; auto|right; constructor; auto]. }
  - rewrite app_length in L. cbn in L. destruct (IH rest ltac:(lia)) as (ls & LS). exists (l :: ls). now constructor.
  - destruct content as [|x content]; [exists []; constructor|]. exists [x :: content]. constructor; auto. discriminate.
Qed.
Lemma split_at c (l : bytes) : ~ In c l \/ exists a b, l = a ++ c :: b /\ ~ In c a.
Proof.
  induction l as [|x l IH]; [left; intros []|]. destruct (Z.eq_dec x c) as [-> |N]; [right; exists [], l; split; auto|].
  destruct IH as [IH|(a & b & -> & I)]; [left; intros [|]; auto|right; exists (x :: a), b; split; auto; intros [|]; auto].
Qed.
Lemma head_exists t n : exists cl, head t n cl.
Proof.
  destruct t as [|c t]; [eexists; apply head_empty|]. assert (c :: t <> []) as N by discriminate. destruct (ident (cut (c :: t))) eqn:I.
  - destruct (allowed_name (cut n)) eqn:A.
    + eexists. apply head_ok; auto. now apply allowed_name_ok.
    + eexists. apply head_name; auto. intros X. apply allowed_name_ok in X. congruence.
  - eexists. apply head_type; auto.
Qed.
Lemma means_exist l : exists cl, means l cl.
Proof.
  pose proof (trim_spec l) as Ht. destruct (str_trim l) as [|c w] eqn:E; [eexists; now apply m_blank|].
  destruct (Z.eq_dec c 35) as [-> |C1]; [eexists; eapply m_comment; eauto|].
  destruct (Z.eq_dec c 91) as [-> |C2].
  - destruct (split_at 93 w) as [NI|(body & rest & -> & NI)]; [eexists; eapply m_open; eauto|].
    destruct (split_at 61 body) as [NE|(ty & nm & -> & NE)].
    + destruct (head_exists (str_trim body) []) as (cl & H). exists cl. eapply m_section; eauto. apply trim_spec.
    + destruct (head_exists (str_trim ty) (str_trim nm)) as (cl & H). exists cl. rewrite <- app_assoc in Ht. cbn [app] in Ht. rewrite in_app_iff in NI. cbn [In] in NI. 
      eapply m_named; eauto; try apply trim_spec; tauto.
  - assert (word (c :: w) \/ exists k sp r, c :: w = k ++ sp :: r /\ word k /\ isspace sp = true) as [WD|(k & sp & r & EK & WD & SP)].
    { clear. induction (c :: w) as [|x u IH]; [left; constructor|]. destruct (isspace x) eqn:X; [right; exists [], x, u; repeat split; auto; constructor|].
      destruct IH as [IH|(k & sp & r & -> & WD & SP)]; [left; constructor; auto|right; exists (x :: k), sp, r; repeat split; auto; constructor; auto]. }
    + eexists. eapply m_key; eauto. cbn. auto.
    + destruct k as [|x k].
      * cbn in EK. injection EK as -> ->. destruct Ht as (_ & _ & _ & _ & _ & H1 & _). rewrite (H1 _ _ eq_refl) in SP. discriminate.
      * cbn in EK. injection EK as -> ->. eexists. eapply (m_entry l (x :: k) sp r); eauto; [cbn; auto|apply trim_spec].
Qed.
