(** The trees of the configuration database as maps. *)
From Verif Require Import Base BitsModel StrBase BufLemmas CompModel CompProofs StringModel CfgModel CfgSpec.
From Coq Require Import Sorting.Sorted.

(** * Keys *)
Lemma same_name_eq a b : same_name a b = true <->
  match a, b with None, None => True | Some x, Some y => map tolower x = map tolower y | _, _ => False end.
Proof.
  unfold same_name, same. destruct a, b; try (split; [discriminate|contradiction]); try tauto. apply str_eqb_eq.
Qed.
Lemma same_eq a b : same a b = true <-> map tolower a = map tolower b.
Proof. apply str_eqb_eq. Qed.
Lemma same_refl a : same a a = true.
Proof. now apply same_eq. Qed.
Lemma same_name_refl a : same_name a a = true.
Proof. apply same_name_eq. destruct a; auto. Qed.
Lemma same_name_sym a b : same_name a b = same_name b a.
Proof.
  apply eq_true_iff_eq. rewrite !same_name_eq. destruct a, b; try tauto. split; auto.
Qed.
Lemma same_name_trans a b c : same_name a b = true -> same_name b c = same_name a c.
Proof.
  intros H. apply eq_true_iff_eq. rewrite same_name_eq in *. rewrite !same_name_eq. destruct a, b, c; try tauto; try congruence. rewrite H. tauto.
Qed.
Lemma same_sym a b : same a b = same b a.
Proof. apply (same_name_sym (Some a) (Some b)). Qed.
Lemma same_trans a b c : same a b = true -> same b c = same a c.
Proof. apply (same_name_trans (Some a) (Some b) (Some c)). Qed.

Lemma kcmp_same a b : text_name a -> text_name b -> (kcmp a b =? 0) = same_name a b.
Proof.
  destruct a as [a|], b as [b|]; cbn [text_name kcmp same_name]; intros A B; auto.
  apply eq_true_iff_eq. rewrite Z.eqb_eq, same_eq. apply (proj2 strcasecmp_good); auto.
Qed.
Lemma kcmp_anti a b : kcmp b a = - kcmp a b.
Proof. destruct a, b; cbn [kcmp]; try lia. apply strcasecmp_anti. Qed.
Lemma kcmp_lt_trans a b c : text_name a -> text_name b -> text_name c -> kcmp a b <= 0 -> kcmp b c < 0 -> kcmp a c < 0.
Proof.
  destruct a as [a|], b as [b|], c as [c|]; cbn [kcmp text_name]; intros A B C; try lia. intros H1 H2.
  apply (strcasecmp_trans a b c); auto; lia.
Qed.
Lemma kcmp_lt_trans' a b c : text_name a -> text_name b -> text_name c -> kcmp a b < 0 -> kcmp b c <= 0 -> kcmp a c < 0.
Proof.
  destruct a as [a|], b as [b|], c as [c|]; cbn [kcmp text_name]; intros A B C; try lia. intros H1 H2.
  apply (strcasecmp_trans a b c); auto; lia.
Qed.

(** * Trees: the keys are texts, in ascending order; the elements satisfy [P] *)
Definition okkey (nn : bool) (k : option bytes) : Prop := match k with None => nn = false | Some s => text s end.
Lemma okkey_text nn k : okkey nn k -> text_name k.
Proof. destruct k; cbn; auto. Qed.
#[local] Hint Resolve okkey_text : core.
Fixpoint okt {A} (nn : bool) (P : A -> Prop) (l : tree A) : Prop :=
  match l with
  | [] => True
  | (k, x) :: l' => okkey nn k /\ P x /\ Forall (fun q => kcmp k (fst q) < 0) l' /\ okt nn P l'
  end.

Section T.
Context {A : Type} (nn : bool) (P : A -> Prop).
Implicit Types (l : tree A).

Lemma okt_keys l : okt nn P l -> Forall (fun q => okkey nn (fst q) /\ P (snd q)) l.
Proof. induction l as [|(k, x) l IH]; cbn [okt]; intros H; constructor; cbn; tauto. Qed.
Lemma find_none_head l k : okt nn P l -> text_name k -> Forall (fun q => kcmp k (fst q) < 0) l -> t_find l k = None.
Proof.
  induction l as [|(k', x) l IH]; intros O T F; auto. inversion F; subst. cbn [t_find fst] in *. cbn [okt] in O.
  destruct (Z.eqb_spec (kcmp k k') 0); [lia|]. apply IH; tauto.
Qed.
Lemma find_P l k x : okt nn P l -> t_find l k = Some x -> P x.
Proof.
  induction l as [|(k', y) l IH]; cbn [t_find okt]; intros O E; [discriminate|]. destruct (kcmp k k' =? 0); [|apply IH; tauto].
  injection E as <-. tauto.
Qed.
(* equal keys find the same *)
Lemma find_same l k1 k2 : okt nn P l -> text_name k1 -> text_name k2 -> same_name k1 k2 = true -> t_find l k1 = t_find l k2.
Proof.
  induction l as [|(k', y) l IH]; cbn [t_find okt]; intros O T1 T2 E; auto. destruct O as (K & _ & _ & O).
  rewrite !kcmp_same by eauto. rewrite <- (same_name_trans k1 k2 k' E). destruct (same_name k2 k'); auto.
Qed.

Lemma insert_find l k x k' : okt nn P l -> okkey nn k -> text_name k' -> t_find l k = None ->
  t_find (t_insert l k x) k' = if same_name k k' then Some x else t_find l k'.
Proof.
  intros O K T'. assert (text_name k) as T by eauto. induction l as [|(k0, y) l IH]; intros E.
  - cbn. rewrite kcmp_same, same_name_sym by auto. reflexivity.
  - cbn [t_insert t_find okt] in *. destruct O as (K0 & _ & F & O). destruct (Z.ltb_spec (kcmp k k0) 0) as [L|L].
    + cbn [t_find]. rewrite (kcmp_same k' k), same_name_sym by auto. reflexivity.
    + cbn [t_find]. rewrite (kcmp_same k k0) in E by eauto. destruct (same_name k k0) eqn:S0; [discriminate|].
      rewrite IH by auto. rewrite (kcmp_same k' k0) by eauto. destruct (same_name k' k0) eqn:S1; auto.
      destruct (same_name k k') eqn:S2; auto. rewrite (same_name_trans k k' k0 S2) in S1. congruence.
Qed.
Lemma insert_ok l k x : okt nn P l -> okkey nn k -> P x -> t_find l k = None -> okt nn P (t_insert l k x).
Proof.
  intros O K X. assert (text_name k) as T by eauto. induction l as [|(k0, y) l IH]; intros E.
  - cbn. auto.
  - cbn [t_insert t_find okt] in *. destruct O as (K0 & Y & F & O). destruct (Z.ltb_spec (kcmp k k0) 0) as [L|L].
    + cbn [okt]. repeat split; auto. constructor; auto. pose proof (okt_keys l O) as KS.
      rewrite Forall_forall in *. intros q Hq. apply (kcmp_lt_trans k k0); eauto; [|lia]. eapply okkey_text. apply KS. auto.
    + destruct (Z.eqb_spec (kcmp k k0) 0); [discriminate|]. cbn [okt]. repeat split; auto.
      assert (forall l, Forall (fun q => kcmp k0 (fst q) < 0) l -> Forall (fun q => kcmp k0 (fst q) < 0) (t_insert l k x)) as G.
      { clear - L n. intros l F. induction F as [|(k1, z) l Z F IH]; cbn [t_insert].
        - constructor; auto. cbn. rewrite kcmp_anti. lia.
        - destruct (kcmp k k1 <? 0); constructor; auto. cbn. rewrite kcmp_anti. lia. }
      auto.
Qed.
Lemma update_find l k x k' : okt nn P l -> text_name k -> text_name k' ->
  t_find (t_update l k x) k' = if same_name k k' then match t_find l k with None => None | Some _ => Some x end else t_find l k'.
Proof.
  intros O T T'. induction l as [|(k0, y) l IH]; cbn [t_update t_find okt] in *.
  - now destruct (same_name k k').
  - destruct O as (K0 & _ & F & O). rewrite !kcmp_same by eauto. destruct (same_name k k0) eqn:S0.
    + cbn [t_find]. rewrite kcmp_same by eauto. destruct (same_name k k') eqn:S1.
      * rewrite (same_name_trans _ _ k0 S1), S0. reflexivity.
      * assert (same_name k' k0 = false) as ->; [|reflexivity].
        destruct (same_name k' k0) eqn:S2; auto. rewrite same_name_sym in S2. rewrite (same_name_sym k k0) in S0.
        rewrite <- (same_name_trans _ _ k' S0) in S2. congruence.
    + cbn [t_find]. rewrite (kcmp_same k' k0) by eauto. rewrite IH by auto. destruct (same_name k' k0) eqn:S1; auto.
      destruct (same_name k k') eqn:S2; auto. rewrite (same_name_trans _ _ k0 S2) in S1. congruence.
Qed.
Lemma update_ok l k x : okt nn P l -> P x -> okt nn P (t_update l k x).
Proof.
  induction l as [|(k0, y) l IH]; cbn [t_update okt]; intros O X; auto. destruct O as (K0 & Y & F & O). destruct (kcmp k k0 =? 0); cbn [okt]; auto.
  repeat split; auto. clear - F. induction F as [|(k1, z) l Z F IH]; cbn [t_update]; auto. destruct (kcmp k k1 =? 0); constructor; auto.
Qed.
Lemma remove_find l k k' : okt nn P l -> text_name k -> text_name k' ->
  t_find (t_remove l k) k' = if same_name k k' then None else t_find l k'.
Proof.
  intros O T T'. induction l as [|(k0, y) l IH]; cbn [t_remove t_find okt] in *.
  - now destruct (same_name k k').
  - destruct O as (K0 & _ & F & O). rewrite !kcmp_same by eauto. destruct (same_name k k0) eqn:S0.
    + assert (same_name k' k0 = same_name k k') as E.
      { rewrite same_name_sym. rewrite same_name_sym in S0. apply eq_sym. apply same_name_trans. auto. }
      rewrite E. destruct (same_name k k') eqn:S1; auto.
      apply (find_none_head l); auto. pose proof (okt_keys l O) as KS. rewrite Forall_forall in *. intros q Hq.
      apply (kcmp_lt_trans k' k0); eauto. * eapply okkey_text, KS, Hq. * pose proof (kcmp_same k' k0 T' ltac:(eauto)). rewrite E in H. lia.
    + cbn [t_find]. rewrite (kcmp_same k' k0) by eauto. rewrite IH by auto. destruct (same_name k' k0) eqn:S1; auto.
      destruct (same_name k k') eqn:S2; auto. rewrite (same_name_trans _ _ k0 S2) in S1. congruence.
Qed.
Lemma remove_ok l k : okt nn P l -> okt nn P (t_remove l k).
Proof.
  induction l as [|(k0, y) l IH]; cbn [t_remove okt]; intros O; auto. destruct O as (K0 & Y & F & O). destruct (kcmp k k0 =? 0); auto.
  cbn [okt]. repeat split; auto. clear - F. induction F as [|(k1, z) l Z F IH]; cbn [t_remove]; auto. destruct (kcmp k k1 =? 0); auto.
Qed.
End T.
