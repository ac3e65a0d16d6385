From Verif Require Import Base ListModel ListSpec.

Lemma upd_same {A} (f : Z -> A) x v : upd f x v x = v.
Proof. unfold upd. now rewrite Z.eqb_refl. Qed.
Lemma upd_other {A} (f : Z -> A) x v y : y <> x -> upd f x v y = f y.
Proof. unfold upd. intros H. apply Z.eqb_neq in H. now rewrite H. Qed.

Fixpoint linked (h : lheap) (L : list Z) : Prop :=
  match L with
  | a :: ((b :: _) as r) => nx h a = Some b /\ pv h b = Some a /\ linked h r
  | _ => True
  end.

Lemma linked_cons h a b r : linked h (a :: b :: r) <-> nx h a = Some b /\ pv h b = Some a /\ linked h (b :: r).
Proof. reflexivity. Qed.

Lemma linked_app h L1 a L2 : linked h (L1 ++ a :: L2) <-> linked h (L1 ++ [a]) /\ linked h (a :: L2).
Proof.
  induction L1 as [|x L1 IH].
  - cbn. tauto.
  - destruct L1 as [|y L1].
    + cbn [app]. rewrite linked_cons. cbn [linked]. tauto.
    + cbn [app] in *. rewrite !linked_cons. rewrite IH. tauto.
Qed.

Lemma linked_frame h h' L : 
  (forall y, In y (removelast L) -> nx h' y = nx h y) ->
  (forall y, In y (tl L) -> pv h' y = pv h y) ->
  linked h L -> linked h' L.
Proof.
  induction L as [|a [|b r] IH]; intros H1 H2 HL; auto.
  rewrite linked_cons in HL |- *. destruct HL as (E1 & E2 & HL). repeat split.
  - rewrite H1; auto. cbn. auto.
  - rewrite H2; auto. cbn. auto.
  - apply IH; auto.
    + intros y Hy. apply H1. change (removelast (a :: b :: r)) with (a :: removelast (b :: r)). now right.
    + intros y Hy. apply H2. cbn. right. exact Hy.
Qed.

Lemma removelast_app_cons (A B : list Z) p : removelast (A ++ p :: B) = A ++ removelast (p :: B).
Proof. apply removelast_app. discriminate. Qed.
Lemma removelast_snoc (A : list Z) p : removelast (A ++ [p]) = A.
Proof. rewrite removelast_app_cons. cbn. apply app_nil_r. Qed.

Lemma NoDup_app_l (A B : list Z) : NoDup (A ++ B) -> NoDup A.
Proof. induction A; cbn; intros H; [constructor|]. inversion_clear H. constructor; auto. intros X; apply H0, in_or_app; auto. Qed.
Lemma NoDup_app_r (A B : list Z) : NoDup (A ++ B) -> NoDup B.
Proof. induction A; cbn; auto. intros H; inversion_clear H; auto. Qed.
Lemma NoDup_app_disj (A B : list Z) x : NoDup (A ++ B) -> In x A -> In x B -> False.
Proof.
  induction A; cbn; intros H HA HB; [tauto|]. inversion_clear H. destruct HA as [->|HA]; [apply H0, in_or_app; auto|auto].
Qed.
Lemma NoDup_app_intro (A B : list Z) : NoDup A -> NoDup B -> (forall x, In x A -> In x B -> False) -> NoDup (A ++ B).
Proof.
  induction A; cbn; intros HA HB HD; auto. inversion_clear HA. constructor.
  - intros X. apply in_app_or in X as [|]; eauto.
  - apply IHA; auto. intros x H1 H2. apply (HD x); auto.
Qed.

(** The heap after [__list_add] of [new] between [p] and [n]. *)
Definition added (h : lheap) (p n new : Z) : lheap :=
  set_nx (set_pv (set_pv (set_nx h new (Some n)) new (Some p)) n (Some new)) p (Some new).
Lemma list_add_eq h p n new : list_add_ h (Some p) (Some n) new = Some (added h p n new).
Proof. reflexivity. Qed.
Lemma added_nx_other h p n new y : y <> p -> y <> new -> nx (added h p n new) y = nx h y.
Proof. intros. cbn. rewrite !upd_other; auto. Qed.
Lemma added_pv_other h p n new y : y <> n -> y <> new -> pv (added h p n new) y = pv h y.
Proof. intros. cbn. rewrite !upd_other; auto. Qed.

Lemma in_tl (A : list Z) x : In x (tl A) -> In x A.
Proof. destruct A; cbn; auto. Qed.
Lemma in_removelast (A : list Z) x : In x (removelast A) -> In x A.
Proof. induction A as [|a [|b r] IH]; cbn [removelast]; [auto|intros []|]. intros [->|H]; [left; auto|right; auto]. Qed.

Lemma linked_insert h A p n B new :
  linked h (A ++ p :: n :: B) ->
  NoDup (removelast (A ++ p :: n :: B)) -> NoDup (tl (A ++ p :: n :: B)) ->
  ~ In new (A ++ p :: n :: B) ->
  linked (added h p n new) (A ++ p :: new :: n :: B).
Proof.
  intros HL N1 N2 HF.
  assert (new <> p /\ new <> n) as [Hp Hn] by (split; intros ->; apply HF, in_or_app; right; cbn; auto).
  apply linked_app in HL as [L1 L2]. rewrite linked_cons in L2. destruct L2 as (E1 & E2 & L2).
  rewrite removelast_app_cons in N1.
  change (removelast (p :: n :: B)) with (p :: removelast (n :: B)) in N1.
  assert (NB : ~ In p (removelast (n :: B))) by (apply NoDup_app_r in N1; inversion N1; auto).
  assert (NA : ~ In p A) by (intros X; eapply NoDup_app_disj; [exact N1|exact X|left; auto]).
  assert (M1 : ~ In n (tl (A ++ [p]))).
  { intros X. replace (A ++ p :: n :: B) with ((A ++ [p]) ++ n :: B) in N2 by (rewrite <- app_assoc; reflexivity).
    destruct (A ++ [p]) as [|a A'] eqn:EA; [destruct X|]. cbn [tl app] in *.
    eapply NoDup_app_disj; [exact N2|exact X|left; auto]. }
  assert (M2 : ~ In n B).
  { intros X. replace (A ++ p :: n :: B) with ((A ++ [p]) ++ n :: B) in N2 by (rewrite <- app_assoc; reflexivity).
    destruct (A ++ [p]) as [|a A'] eqn:EA; [destruct A; discriminate|]. cbn [tl app] in N2.
    apply NoDup_app_r in N2. inversion N2; auto. }
  apply linked_app. split; [|rewrite !linked_cons; repeat split].
  - eapply linked_frame; [| |exact L1].
    + intros y Hy. rewrite removelast_snoc in Hy. apply added_nx_other; intros ->; auto.
      apply HF, in_or_app; auto.
    + intros y Hy. apply added_pv_other; intros ->; auto.
      apply HF. apply in_tl in Hy. apply in_or_app. apply in_app_or in Hy as [Hy|[Hy|[]]]; [left; auto|right; left; auto].
  - cbn. now rewrite upd_same.
  - cbn. rewrite upd_other, upd_same; auto.
  - cbn. rewrite upd_other, upd_same; auto.
  - cbn. rewrite upd_same; auto.
  - eapply linked_frame; [| |exact L2].
    + intros y Hy. apply added_nx_other; intros ->; auto. apply HF, in_or_app. right. right. now apply in_removelast.
    + intros y Hy. cbn in Hy. apply added_pv_other; intros ->; auto. apply HF, in_or_app. right. right. right. auto.
Qed.

(** The heap after [list_remove] of [x] between [p] and [n]. *)
Definition removed (h : lheap) (p n x : Z) : lheap :=
  list_init_node (set_pv (set_nx h p (Some n)) n (Some p)) x.
Lemma list_remove_eq h p n x : pv h x = Some p -> nx h x = Some n -> list_remove h x = Some (removed h p n x).
Proof. intros E1 E2. unfold list_remove, list_remove_. rewrite E1, E2. reflexivity. Qed.
Lemma removed_nx_other h p n x y : y <> p -> y <> x -> nx (removed h p n x) y = nx h y.
Proof. intros. cbn. rewrite !upd_other; auto. Qed.
Lemma removed_pv_other h p n x y : y <> n -> y <> x -> pv (removed h p n x) y = pv h y.
Proof. intros. cbn. rewrite !upd_other; auto. Qed.

Lemma linked_delete h A p x n B :
  linked h (A ++ p :: x :: n :: B) ->
  NoDup (removelast (A ++ p :: x :: n :: B)) -> NoDup (tl (A ++ p :: x :: n :: B)) ->
  p <> x -> x <> n ->
  ~ In x (A ++ p :: n :: B) ->
  linked (removed h p n x) (A ++ p :: n :: B).
Proof.
  intros HL N1 N2 Hp Hn HF.
  apply linked_app in HL as [L1 L2]. rewrite !linked_cons in L2. destruct L2 as (E1 & E2 & E3 & E4 & L2).
  rewrite removelast_app_cons in N1.
  change (removelast (p :: x :: n :: B)) with (p :: x :: removelast (n :: B)) in N1.
  assert (NB : ~ In p (removelast (n :: B))).
  { apply NoDup_app_r in N1. inversion_clear N1. intros X. apply H. now right. }
  assert (NA : ~ In p A) by (intros X; eapply NoDup_app_disj; [exact N1|exact X|left; auto]).
  replace (A ++ p :: x :: n :: B) with ((A ++ [p]) ++ x :: n :: B) in N2 by (rewrite <- app_assoc; reflexivity).
  assert (M1 : ~ In n (tl (A ++ [p]))).
  { intros X. destruct (A ++ [p]) as [|a A'] eqn:EA; [destruct X|]. cbn [tl app] in *.
    eapply NoDup_app_disj; [exact N2|exact X|right; left; auto]. }
  assert (M2 : ~ In n B).
  { intros X. destruct (A ++ [p]) as [|a A'] eqn:EA; [destruct A; discriminate|]. cbn [tl app] in N2.
    apply NoDup_app_r in N2. inversion_clear N2. inversion_clear H0. auto. }
  apply linked_app. split; [|rewrite !linked_cons; repeat split].
  - eapply linked_frame; [| |exact L1].
    + intros y Hy. rewrite removelast_snoc in Hy. apply removed_nx_other; intros ->; auto.
      apply HF, in_or_app; auto.
    + intros y Hy. apply removed_pv_other; intros ->; auto.
      apply HF. apply in_tl in Hy. apply in_or_app. apply in_app_or in Hy as [Hy|[Hy|[]]]; [left; auto|right; left; auto].
  - cbn. rewrite upd_other, upd_same; auto.
  - cbn. rewrite upd_other, upd_same; auto.
  - eapply linked_frame; [| |exact L2].
    + intros y Hy. apply removed_nx_other; intros ->; auto. apply HF, in_or_app. right. right. now apply in_removelast.
    + intros y Hy. cbn in Hy. apply removed_pv_other; intros ->; auto. apply HF, in_or_app. right. right. right. auto.
Qed.

(** * One ring *)
Definition ring (h : lheap) (hd : Z) (l : list Z) : Prop := linked h (hd :: l ++ [hd]).

Lemma ring_removelast hd (l : list Z) : removelast (hd :: l ++ [hd]) = hd :: l.
Proof. change (hd :: l ++ [hd]) with ((hd :: l) ++ [hd]). apply removelast_snoc. Qed.
Lemma ring_nodup hd (l : list Z) : NoDup (hd :: l) -> NoDup (removelast (hd :: l ++ [hd])) /\ NoDup (tl (hd :: l ++ [hd])).
Proof.
  intros H. rewrite ring_removelast. split; auto. cbn. inversion_clear H. apply NoDup_app_intro; auto.
  - repeat constructor. auto.
  - intros x H2 [<-|[]]. auto.
Qed.

Lemma ring_frame h h' hd l : (forall y, In y (hd :: l) -> nx h' y = nx h y /\ pv h' y = pv h y) -> ring h hd l -> ring h' hd l.
Proof.
  intros H. apply linked_frame.
  - rewrite ring_removelast. intros y Hy. now apply H.
  - cbn. intros y Hy. apply in_app_or in Hy as [Hy|[<-|[]]]; apply H; cbn; auto.
Qed.

(** insertion after position [p] of the ring, [p] being the head or a node *)

(** insertion at a split point of the ring *)
Lemma ring_insert h hd l1 l2 new : ring h hd (l1 ++ l2) -> NoDup (hd :: l1 ++ l2) -> ~ In new (hd :: l1 ++ l2) ->
  let p := last l1 hd in let n := List.hd hd l2 in
  ring (added h p n new) hd (l1 ++ new :: l2) /\
  nx h p = Some n /\ pv h n = Some p /\ In p (hd :: l1) /\ In n (hd :: l2).
Proof.
  intros HR HN HF p n. unfold ring in *.
  destruct (ring_nodup hd (l1 ++ l2) HN) as [N1 N2].
  assert (EP : exists A, hd :: l1 = A ++ [p]).
  { unfold p. destruct l1 as [|x l1] using rev_ind; [exists []; reflexivity|]. exists (hd :: l1). rewrite last_last. reflexivity. }
  assert (EN : exists B, l2 ++ [hd] = n :: B) by (unfold n; destruct l2 as [|y l2]; cbn; eauto).
  destruct EP as [A EA], EN as [B EB].
  assert (E : hd :: (l1 ++ l2) ++ [hd] = A ++ p :: n :: B).
  { rewrite <- app_assoc. change (hd :: l1 ++ l2 ++ [hd]) with ((hd :: l1) ++ l2 ++ [hd]). rewrite EA, EB, <- app_assoc. reflexivity. }
  assert (E' : hd :: (l1 ++ new :: l2) ++ [hd] = A ++ p :: new :: n :: B).
  { rewrite <- app_assoc. change (hd :: l1 ++ (new :: l2) ++ [hd]) with ((hd :: l1) ++ new :: l2 ++ [hd]). rewrite EA, EB, <- app_assoc. reflexivity. }
  rewrite E in HR, N1, N2. rewrite E'. repeat split.
  - apply linked_insert; auto. rewrite <- E. intros X. apply HF. cbn in X. destruct X as [|X]; [left; auto|].
    apply in_app_or in X as [X|[X|[]]]; [right; auto|left; auto].
  - apply linked_app in HR as [_ HR]. apply HR.
  - apply linked_app in HR as [_ HR]. apply HR.
  - rewrite EA. apply in_or_app; right; cbn; auto.
  - unfold n. destruct l2; cbn; auto.
Qed.

Lemma ring_delete h hd l1 x l2 : ring h hd (l1 ++ x :: l2) -> NoDup (hd :: l1 ++ x :: l2) ->
  let p := last l1 hd in let n := List.hd hd l2 in
  list_remove h x = Some (removed h p n x) /\
  ring (removed h p n x) hd (l1 ++ l2) /\ In p (hd :: l1) /\ In n (hd :: l2).
Proof.
  intros HR HN p n. unfold ring in *.
  destruct (ring_nodup hd _ HN) as [N1 N2].
  assert (EP : exists A, hd :: l1 = A ++ [p]).
  { unfold p. destruct l1 as [|y l1] using rev_ind; [exists []; reflexivity|]. exists (hd :: l1). rewrite last_last. reflexivity. }
  assert (EN : exists B, l2 ++ [hd] = n :: B) by (unfold n; destruct l2 as [|y l2]; cbn; eauto).
  destruct EP as [A EA], EN as [B EB].
  assert (E : hd :: (l1 ++ x :: l2) ++ [hd] = A ++ p :: x :: n :: B).
  { rewrite <- app_assoc. change (hd :: l1 ++ (x :: l2) ++ [hd]) with ((hd :: l1) ++ x :: l2 ++ [hd]). rewrite EA, EB, <- app_assoc. reflexivity. }
  assert (E' : hd :: (l1 ++ l2) ++ [hd] = A ++ p :: n :: B).
  { rewrite <- app_assoc. change (hd :: l1 ++ l2 ++ [hd]) with ((hd :: l1) ++ l2 ++ [hd]). rewrite EA, EB, <- app_assoc. reflexivity. }
  rewrite E in HR, N1, N2. rewrite E'.
  assert (NX : ~ In x (hd :: l1 ++ l2)).
  { change (hd :: l1 ++ x :: l2) with ((hd :: l1) ++ x :: l2) in HN. change (hd :: l1 ++ l2) with ((hd :: l1) ++ l2).
    apply NoDup_remove_2 in HN. auto. }
  assert (NX' : ~ In x (A ++ p :: n :: B)).
  { rewrite <- E'. intros X. apply NX. cbn in X. destruct X as [|X]; [left; auto|].
    apply in_app_or in X as [X|[X|[]]]; [right; auto|left; auto]. }
  assert (p <> x) by (intros ->; apply NX', in_or_app; right; cbn; auto).
  assert (x <> n) by (intros ->; apply NX', in_or_app; right; cbn; auto).
  repeat split.
  - apply list_remove_eq; apply linked_app in HR as [_ HR]; apply HR.
  - apply linked_delete; auto.
  - rewrite EA. apply in_or_app; right; cbn; auto.
  - unfold n. destruct l2; cbn; auto.
Qed.

Lemma last_In (l : list Z) d : In (last l d) (d :: l).
Proof. destruct l as [|x l] using rev_ind; [left; auto|]. rewrite last_last. right. apply in_or_app; right; left; auto. Qed.

(** nodes in the ring are linked, ends are where [first]/[last] say *)
Lemma ring_ptrs h hd l x : ring h hd l -> In x (hd :: l) -> exists a b, nx h x = Some a /\ pv h x = Some b /\ In a (hd :: l) /\ In b (hd :: l).
Proof.
  unfold ring. intros HR Hx.
  assert (exists b, pv h x = Some b /\ In b (hd :: l)).
  { assert (X : In x (l ++ [hd])) by (apply in_or_app; destruct Hx; [right; left; auto|left; auto]).
    apply in_split in X as (l1 & l2 & E). rewrite E in HR.
    change (hd :: l1 ++ x :: l2) with ((hd :: l1) ++ x :: l2) in HR. apply linked_app in HR as [HR _].
    assert (exists A p, hd :: l1 = A ++ [p]) as (A & p & EA).
    { destruct l1 as [|y l1] using rev_ind; [exists [], hd; reflexivity|exists (hd :: l1), y; reflexivity]. }
    rewrite EA in HR. rewrite <- app_assoc in HR. apply linked_app in HR as [_ HR]. exists p. split; [apply HR|].
    assert (In p (hd :: l1)) by (rewrite EA; apply in_or_app; right; cbn; auto).
    destruct H as [|H]; [left; auto|right].
    assert (In p (removelast (l ++ [hd]))) as Q.
    { rewrite E, removelast_app by discriminate. apply in_or_app; auto. }
    rewrite removelast_snoc in Q. auto. }
  assert (exists a, nx h x = Some a /\ In a (hd :: l)).
  { apply in_split in Hx as (l1 & l2 & E).
    change (hd :: l ++ [hd]) with ((hd :: l) ++ [hd]) in HR. rewrite E, <- app_assoc in HR. cbn [app] in HR.
    apply linked_app in HR as [_ HR]. destruct l2 as [|y l2]; cbn [app] in HR.
    - exists hd. split; [apply HR|left; auto].
    - exists y. split; [apply HR|]. rewrite E. apply in_or_app; right; cbn; auto. }
  firstorder.
Qed.
Lemma ring_first h hd l : ring h hd l -> nx h hd = Some (List.hd hd l).
Proof. unfold ring. destruct l; cbn [app List.hd]; rewrite linked_cons; tauto. Qed.
Lemma ring_last h hd l : ring h hd l -> pv h hd = Some (last l hd).
Proof.
  unfold ring. destruct l as [|x l] using rev_ind; [cbn; tauto|]. intros H. rewrite last_last.
  rewrite <- app_assoc in H. change (hd :: l ++ [x] ++ [hd]) with ((hd :: l) ++ x :: [hd]) in H.
  apply linked_app in H as [_ H]. apply H.
Qed.

(** walking *)
Lemma walk_next_seg fuel h hd x l : linked h (x :: l ++ [hd]) -> ~ In hd l -> (length l < fuel)%nat ->
  walk_next fuel h hd x = Some l.
Proof.
  revert x l. induction fuel as [|f IH]; intros x l HL HN HF; [lia|]. cbn [walk_next].
  destruct l as [|y l]; cbn [app] in HL; rewrite linked_cons in HL; destruct HL as (-> & _ & HL).
  - now rewrite Z.eqb_refl.
  - assert (y <> hd) by (intros ->; apply HN; left; auto). apply Z.eqb_neq in H. rewrite H.
    rewrite (IH y l); auto; [intros X; apply HN; right; auto|cbn in HF; lia].
Qed.
Lemma walk_prev_seg fuel h hd x l : linked h (hd :: rev l ++ [x]) -> ~ In hd l -> (length l < fuel)%nat ->
  walk_prev fuel h hd x = Some l.
Proof.
  revert x l. induction fuel as [|f IH]; intros x l HL HN HF; [lia|]. cbn [walk_prev].
  destruct l as [|y l].
  - cbn in HL. destruct HL as (_ & -> & _). now rewrite Z.eqb_refl.
  - cbn [rev] in HL. rewrite <- app_assoc in HL. change (hd :: rev l ++ [y] ++ [x]) with ((hd :: rev l) ++ y :: [x]) in HL.
    apply linked_app in HL as [HL (_ & -> & _)].
    assert (y <> hd) by (intros ->; apply HN; left; auto). apply Z.eqb_neq in H. rewrite H.
    rewrite (IH y l); auto; [intros X; apply HN; right; auto|cbn in HF; lia].
Qed.
Lemma ring_walk h hd l fuel : ring h hd l -> NoDup (hd :: l) -> (length l < fuel)%nat ->
  walk_next fuel h hd hd = Some l /\ walk_prev fuel h hd hd = Some (rev l).
Proof.
  intros HR HN HF. inversion_clear HN. split.
  - apply walk_next_seg; auto.
  - apply walk_prev_seg; [rewrite rev_involutive; auto|rewrite <- in_rev; auto|rewrite rev_length; auto].
Qed.

(** * The whole heap *)
Definition lists_inv (H : list Z) (A : lstate) (h : lheap) : Prop :=
  (forall hd, In hd H -> ring h hd (A hd)) /\
  (forall hd, In hd H -> NoDup (hd :: A hd)) /\
  (forall x hd1 hd2, In hd1 H -> In hd2 H -> In x (hd1 :: A hd1) -> In x (hd2 :: A hd2) -> hd1 = hd2) /\
  (forall x, fresh H A x -> nx h x = None /\ pv h x = None).

Lemma not_fresh_in H A x hd : In hd H -> In x (hd :: A hd) -> ~ fresh H A x.
Proof. intros H1 [<-|H2] [F1 F2]; [auto|]. apply (F2 hd); auto. Qed.

Lemma ins_before_split pos n l : In pos l -> exists l1 l2, l = l1 ++ pos :: l2 /\ ins_before pos n l = l1 ++ n :: pos :: l2.
Proof.
  induction l as [|x l IH]; [intros []|]. intros HI. cbn [ins_before]. destruct (Z.eqb_spec x pos) as [->|Hn].
  - exists [], l. auto.
  - destruct IH as (l1 & l2 & E1 & E2); [destruct HI; [contradiction|auto]|]. exists (x :: l1), l2. cbn. now rewrite E2, E1.
Qed.
Lemma ins_before_none pos n l : ~ In pos l -> ins_before pos n l = l.
Proof. induction l as [|x l IH]; cbn; auto. intros HI. destruct (Z.eqb_spec x pos); [exfalso; auto|]. f_equal; auto. Qed.
Lemma ins_after_split pos n l : In pos l -> exists l1 l2, l = l1 ++ pos :: l2 /\ ins_after pos n l = l1 ++ pos :: n :: l2.
Proof.
  induction l as [|x l IH]; [intros []|]. intros HI. cbn [ins_after]. destruct (Z.eqb_spec x pos) as [->|Hn].
  - exists [], l. auto.
  - destruct IH as (l1 & l2 & E1 & E2); [destruct HI; [contradiction|auto]|]. exists (x :: l1), l2. cbn. now rewrite E2, E1.
Qed.
Lemma ins_after_none pos n l : ~ In pos l -> ins_after pos n l = l.
Proof. induction l as [|x l IH]; cbn; auto. intros HI. destruct (Z.eqb_spec x pos); [exfalso; auto|]. f_equal; auto. Qed.
Lemma del_none n l : ~ In n l -> del n l = l.
Proof. unfold del. induction l as [|x l IH]; cbn; auto. intros HI. destruct (Z.eqb_spec x n); [exfalso; auto|]. cbn. f_equal; auto. Qed.
Lemma del_app n l1 l2 : del n (l1 ++ l2) = del n l1 ++ del n l2.
Proof. unfold del. apply filter_app. Qed.
Lemma del_split n l1 l2 : NoDup (l1 ++ n :: l2) -> del n (l1 ++ n :: l2) = l1 ++ l2.
Proof.
  intros HN. apply NoDup_remove_2 in HN. rewrite del_app. cbn [del filter]. rewrite Z.eqb_refl. cbn [negb].
  fold (del n l2). rewrite !del_none; auto; intros X; apply HN, in_or_app; auto.
Qed.

(** inserting at a split point of list [hd0] keeps the invariant *)
Lemma inv_insert H A h hd0 l1 l2 new A' : lists_inv H A h -> In hd0 H -> A hd0 = l1 ++ l2 -> fresh H A new ->
  (forall hd, In hd H -> A' hd = if hd =? hd0 then l1 ++ new :: l2 else A hd) ->
  lists_inv H A' (added h (last l1 hd0) (List.hd hd0 l2) new).
Proof.
  intros (I1 & I2 & I3 & I4) H0 E F HA'.
  assert (NF : ~ In new (hd0 :: A hd0)) by (intros X; exact (not_fresh_in H A new hd0 H0 X F)).
  pose proof (I1 hd0 H0) as R0. pose proof (I2 hd0 H0) as N0. rewrite E in R0, N0, NF.
  destruct (ring_insert h hd0 l1 l2 new R0 N0 NF) as (R & _ & _ & P1 & P2).
  set (p := last l1 hd0) in *. set (n := List.hd hd0 l2) in *.
  assert (P1' : In p (hd0 :: A hd0)) by (rewrite E; destruct P1; [left; auto|right; apply in_or_app; auto]).
  assert (P2' : In n (hd0 :: A hd0)) by (rewrite E; destruct P2; [left; auto|right; apply in_or_app; auto]).
  repeat split.
  - intros hd Hh. rewrite HA' by auto. destruct (Z.eqb_spec hd hd0) as [->|Hd]; auto.
    eapply ring_frame; [|apply I1; auto]. intros y Hy.
    assert (y <> p) by (intros ->; apply Hd; eapply I3; eauto). assert (y <> n) by (intros ->; apply Hd; eapply I3; eauto).
    assert (y <> new) by (intros ->; exact (not_fresh_in H A new hd Hh Hy F)).
    split; [apply added_nx_other|apply added_pv_other]; auto.
  - intros hd Hh. rewrite HA' by auto. destruct (Z.eqb_spec hd hd0) as [->|Hd]; [|auto].
    change (hd0 :: l1 ++ new :: l2) with ((hd0 :: l1) ++ new :: l2).
    apply NoDup_Add with (a := new) (l := (hd0 :: l1) ++ l2); [apply Add_app|]. split; auto.
  - assert (K : forall x hd, In hd H -> In x (hd :: A' hd) -> x = new /\ hd = hd0 \/ In x (hd :: A hd)).
    { intros x hd Hh Hx. rewrite HA' in Hx by auto. destruct (Z.eqb_spec hd hd0) as [->|Hd]; [|auto].
      destruct Hx as [|Hx]; [right; left; auto|]. apply in_app_or in Hx as [Hx|[Hx|Hx]]; auto.
      - right. rewrite E. right. apply in_or_app; auto.
      - right. rewrite E. right. apply in_or_app; auto. }
    intros x hd1 hd2 Hh1 Hh2 Hx1 Hx2. destruct (K x hd1 Hh1 Hx1) as [[Q1 Q2]|X1], (K x hd2 Hh2 Hx2) as [[Q3 Q4]|X2]; try congruence.
    + exfalso. subst x. exact (not_fresh_in H A new hd2 Hh2 X2 F).
    + exfalso. subst x. exact (not_fresh_in H A new hd1 Hh1 X1 F).
    + eapply I3; eauto.
  - assert (F2 : fresh H A x /\ x <> new /\ x <> p).
    { destruct H1 as [G1 G2]. assert (fresh H A x).
      { split; auto. intros hd Hh Hx. apply (G2 hd Hh). rewrite HA' by auto. destruct (Z.eqb_spec hd hd0) as [->|]; auto.
        rewrite E in Hx. apply in_app_or in Hx. apply in_or_app. destruct Hx; [left|right; right]; auto. }
      split; [assumption|split].
      - intros ->. apply (G2 hd0 H0). rewrite HA', Z.eqb_refl by auto. apply in_or_app; right; left; auto.
      - intros ->. eapply (not_fresh_in H A p hd0); eauto. }
    destruct F2 as (F2 & ? & ?). rewrite added_nx_other by auto. apply I4; auto.
  - assert (F2 : fresh H A x /\ x <> new /\ x <> n).
    { destruct H1 as [G1 G2]. assert (fresh H A x).
      { split; auto. intros hd Hh Hx. apply (G2 hd Hh). rewrite HA' by auto. destruct (Z.eqb_spec hd hd0) as [->|]; auto.
        rewrite E in Hx. apply in_app_or in Hx. apply in_or_app. destruct Hx; [left|right; right]; auto. }
      split; [assumption|split].
      - intros ->. apply (G2 hd0 H0). rewrite HA', Z.eqb_refl by auto. apply in_or_app; right; left; auto.
      - intros ->. eapply (not_fresh_in H A n hd0); eauto. }
    destruct F2 as (F2 & ? & ?). rewrite added_pv_other by auto. apply I4; auto.
Qed.

Lemma inv_delete H A h hd0 l1 x l2 A' : lists_inv H A h -> In hd0 H -> A hd0 = l1 ++ x :: l2 ->
  (forall hd, In hd H -> A' hd = if hd =? hd0 then l1 ++ l2 else A hd) ->
  exists h', list_remove h x = Some h' /\ lists_inv H A' h'.
Proof.
  intros (I1 & I2 & I3 & I4) H0 E HA'.
  pose proof (I1 hd0 H0) as R0. pose proof (I2 hd0 H0) as N0. rewrite E in R0, N0.
  destruct (ring_delete h hd0 l1 x l2 R0 N0) as (EQ & R & P1 & P2).
  set (p := last l1 hd0) in *. set (n := List.hd hd0 l2) in *.
  assert (P1' : In p (hd0 :: A hd0)) by (rewrite E; destruct P1; [left; auto|right; apply in_or_app; auto]).
  assert (P2' : In n (hd0 :: A hd0)) by (rewrite E; destruct P2; [left; auto|right; apply in_or_app; right; right; auto]).
  assert (PX : In x (hd0 :: A hd0)) by (rewrite E; right; apply in_or_app; right; left; auto).
  exists (removed h p n x). split; [exact EQ|].
  assert (SUB : forall y hd, In hd H -> In y (hd :: A' hd) -> In y (hd :: A hd)).
  { intros y hd Hh Hy. rewrite HA' in Hy by auto. destruct (Z.eqb_spec hd hd0) as [->|Hd]; auto.
    rewrite E. destruct Hy as [|Hy]; [left; auto|right]. apply in_app_or in Hy. apply in_or_app. destruct Hy; [left|right; right]; auto. }
  split; [|split; [|split]].
  - intros hd Hh. rewrite HA' by auto. destruct (Z.eqb_spec hd hd0) as [->|Hd]; auto.
    eapply ring_frame; [|apply I1; auto]. intros y Hy.
    assert (y <> p) by (intros ->; apply Hd; eapply I3; eauto). assert (y <> n) by (intros ->; apply Hd; eapply I3; eauto).
    assert (y <> x) by (intros ->; apply Hd; eapply I3; eauto).
    split; [apply removed_nx_other|apply removed_pv_other]; auto.
  - intros hd Hh. rewrite HA' by auto. destruct (Z.eqb_spec hd hd0) as [->|Hd]; [|auto].
    change (hd0 :: l1 ++ x :: l2) with ((hd0 :: l1) ++ x :: l2) in N0. apply NoDup_remove_1 in N0. exact N0.
  - intros y hd1 hd2 Hh1 Hh2 Hx1 Hx2. eapply I3; eauto.
  - intros y [G1 G2]. destruct (Z.eq_dec y x) as [->|Hyx].
    + cbn. rewrite !upd_same. auto.
    + assert (FA : fresh H A y).
      { split; auto. intros hd Hh Hy. apply (G2 hd Hh). rewrite HA' by auto. destruct (Z.eqb_spec hd hd0) as [->|]; auto.
        rewrite E in Hy. apply in_app_or in Hy. apply in_or_app. destruct Hy as [|[Hy|]]; auto. congruence. }
      assert (y <> p) by (intros ->; exact (not_fresh_in H A p hd0 H0 P1' FA)).
      assert (y <> n) by (intros ->; exact (not_fresh_in H A n hd0 H0 P2' FA)).
      rewrite removed_nx_other, removed_pv_other by auto. apply I4; auto.
Qed.

Lemma ring_empty h hd l : ring h hd l -> NoDup (hd :: l) -> list_is_empty h hd = (match l with [] => true | _ => false end).
Proof.
  intros HR HN. unfold list_is_empty. rewrite (ring_first _ _ _ HR), (ring_last _ _ _ HR).
  destruct l as [|x l]; cbn [List.hd last ptr_eqb]; [now rewrite Z.eqb_refl|].
  inversion_clear HN. destruct (Z.eqb_spec x hd) as [->|]; auto. exfalso; apply H; left; auto.
Qed.

(** the three pieces of list_merge *)
Lemma linked_join h A b B : linked h (A ++ [b]) -> linked h (b :: B) -> linked h (A ++ b :: B).
Proof. intros. apply linked_app; auto. Qed.

Lemma linked_glue h L1 a b L2 : linked h (L1 ++ [a]) -> linked h (b :: L2) -> nx h a = Some b -> pv h b = Some a ->
  linked h (L1 ++ a :: b :: L2).
Proof. intros H1 H2 H3 H4. apply linked_app. split; auto. rewrite linked_cons. auto. Qed.

Lemma inv_merge H A h a b : lists_inv H A h -> In a H -> In b H -> a <> b ->
  exists h', list_merge h a b = Some h' /\ lists_inv H (upd (upd A a (A a ++ A b)) b []) h'.
Proof.
  intros INV Ha Hb Hab. pose proof INV as (I1 & I2 & I3 & I4).
  pose proof (I1 a Ha) as Ra. pose proof (I2 a Ha) as Na. pose proof (I1 b Hb) as Rb. pose proof (I2 b Hb) as Nb.
  assert (DIS : forall y, In y (a :: A a) -> In y (b :: A b) -> False) by (intros y Y1 Y2; apply Hab; eapply I3; eauto).
  unfold list_merge. rewrite (ring_empty h b (A b)) by auto.
  destruct (A b) as [|f lb'] eqn:Eb.
  - exists h. split; [reflexivity|]. 
    assert (K : forall hd, upd (upd A a (A a ++ [])) b [] hd = A hd).
    { intros hd. unfold upd. destruct (Z.eqb_spec hd b) as [->|]; [auto|]. destruct (Z.eqb_spec hd a) as [->|]; auto. apply app_nil_r. }
    destruct INV as (J1 & J2 & J3 & J4). split; [|split; [|split]].
    + intros hd Hh. rewrite K. auto.
    + intros hd Hh. rewrite K. auto.
    + intros x hd1 hd2 Hh1 Hh2. rewrite !K. eauto.
    + intros x [F1 F2]. apply J4. split; auto. intros hd Hh. specialize (F2 hd Hh). now rewrite K in F2.
  - cbn iota. rewrite (ring_last _ _ _ Ra).
    set (la := A a) in *. set (lb := f :: lb') in *. set (t1 := last la a). set (t2 := last lb b).
    assert (NXb : nx h b = Some f) by (apply ring_first in Rb; exact Rb).
    assert (PVb : pv h b = Some t2) by (apply ring_last in Rb; exact Rb).
    assert (T1 : In t1 (a :: la)) by apply last_In. 
    assert (T2 : In t2 lb).
    { unfold t2. pose proof (last_In lb b) as [E|E]; auto. unfold lb in *. clear -E Nb.
      destruct (lb') using rev_ind; [left; reflexivity|]. right. rewrite app_comm_cons, last_last. apply in_or_app; right; left; auto. }
    assert (Bt1 : b <> t1) by (intros E; rewrite <- E in T1; apply (DIS b T1); left; auto).
    assert (Bf : b <> f) by (inversion_clear Nb; intros ->; apply H0; left; auto).
    assert (Bt2 : b <> t2) by (inversion_clear Nb; intros E; rewrite <- E in T2; auto).
    assert (af : a <> f) by (intros E; apply (DIS a); [left; auto|right; rewrite E; left; auto]).
    assert (at2 : a <> t2) by (intros E; apply (DIS a); [left; auto|right; rewrite E; auto]).
    assert (t1t2 : t1 <> t2) by (intros E; apply (DIS t1); [auto|right; rewrite E; auto]).
    assert (t1f : t1 <> f) by (intros E; apply (DIS t1); [auto|right; rewrite E; left; auto]).
    cbn [nx set_nx set_pv pv]. rewrite !upd_other by auto. rewrite NXb. cbn iota.
    cbn [nx set_nx set_pv pv]. rewrite !upd_other by auto. rewrite PVb. rewrite (ring_last _ _ _ Ra). fold t1. cbn iota.
    eexists; split; [reflexivity|].
    match goal with |- lists_inv _ _ ?x => set (h' := x) end.
    assert (NX' : forall y, nx h' y = if y =? b then Some b else if y =? t2 then Some a else if y =? t1 then Some f else nx h y) by reflexivity.
    assert (PV' : forall y, pv h' y = if y =? b then Some b else if y =? a then Some t2 else if y =? f then Some t1 else pv h y) by reflexivity.
    clearbody h'.
    (* decompose the two rings *)
    assert (EA : exists X, a :: la = X ++ [t1]).
    { unfold t1. clearbody la. destruct la as [|z la] using rev_ind; [exists []; reflexivity|]. exists (a :: la). rewrite last_last. reflexivity. }
    assert (EB : exists Y, lb = Y ++ [t2]).
    { unfold t2. clearbody lb. clear -T2. destruct lb as [|z lb] using rev_ind; [destruct T2|]. exists lb. now rewrite last_last. }
    destruct EA as [X EA], EB as [Y EB].
    assert (NLa : NoDup (X ++ [t1])) by (rewrite <- EA; auto).
    assert (NLb : NoDup (Y ++ [t2])) by (rewrite <- EB; inversion Nb; auto).
    assert (L1 : linked h' (X ++ [t1])).
    { unfold ring in Ra. change (a :: la ++ [a]) with ((a :: la) ++ [a]) in Ra. rewrite EA, <- app_assoc in Ra. cbn [app] in Ra.
      apply linked_app in Ra as [Ra _]. eapply linked_frame; [| |exact Ra].
      - rewrite removelast_snoc. intros y Hy. assert (In y (a :: la)) by (rewrite EA; apply in_or_app; auto).
        rewrite NX'. destruct (Z.eqb_spec y b) as [->|]; [exfalso; apply (DIS b); auto; left; auto|].
        destruct (Z.eqb_spec y t2) as [->|]; [exfalso; apply (DIS t2); auto; right; auto|].
        destruct (Z.eqb_spec y t1) as [->|]; [exfalso; eapply NoDup_app_disj; [exact NLa|exact Hy|left; auto]|auto].
      - rewrite <- EA. cbn [tl]. intros y Hy. assert (In y (a :: la)) by (right; auto).
        rewrite PV'. destruct (Z.eqb_spec y b) as [->|]; [exfalso; apply (DIS b); auto; left; auto|].
        destruct (Z.eqb_spec y a) as [->|]; [inversion_clear Na; contradiction|].
        destruct (Z.eqb_spec y f) as [->|]; [exfalso; apply (DIS f); auto; right; left; auto|auto]. }
    assert (L2 : linked h' (Y ++ [t2])).
    { unfold ring in Rb. rewrite EB, <- app_assoc in Rb. change (b :: Y ++ [t2] ++ [b]) with ((b :: Y) ++ t2 :: [b]) in Rb.
      apply linked_app in Rb as [Rb _]. assert (Rb' : linked h (Y ++ [t2])) by (cbn [app] in Rb; destruct Y; cbn [app] in Rb |- *; rewrite linked_cons in Rb; apply Rb).
      eapply linked_frame; [| |exact Rb'].
      - rewrite removelast_snoc. intros y Hy. assert (In y (b :: lb)) by (right; rewrite EB; apply in_or_app; auto).
        rewrite NX'. destruct (Z.eqb_spec y b) as [->|]; [exfalso; inversion_clear Nb; apply H1; rewrite EB; apply in_or_app; auto|].
        destruct (Z.eqb_spec y t2) as [->|]; [exfalso; eapply NoDup_app_disj; [exact NLb|exact Hy|left; auto]|].
        destruct (Z.eqb_spec y t1) as [->|]; [exfalso; apply (DIS t1); auto|auto].
      - rewrite <- EB. unfold lb. cbn [tl]. intros y Hy. assert (In y (b :: lb)) by (right; right; auto).
        rewrite PV'. destruct (Z.eqb_spec y b) as [->|]; [exfalso; inversion_clear Nb; apply H1; right; auto|].
        destruct (Z.eqb_spec y a) as [->|]; [exfalso; apply (DIS a); auto; left; auto|].
        destruct (Z.eqb_spec y f) as [->|]; [exfalso; inversion_clear Nb; inversion_clear H2; contradiction|auto]. }
    assert (RA' : ring h' a (la ++ lb)).
    { unfold ring. rewrite <- app_assoc. change (a :: la ++ lb ++ [a]) with ((a :: la) ++ lb ++ [a]). rewrite EA, <- app_assoc. cbn [app].
      replace (lb ++ [a]) with (f :: lb' ++ [a]) by reflexivity. apply linked_glue; auto.
      - change (f :: lb' ++ [a]) with (lb ++ [a]). rewrite EB, <- app_assoc. cbn [app]. apply linked_glue; auto.
        + exact I.
        + rewrite NX', Z.eqb_refl. apply Z.eqb_neq in Bt2. rewrite Z.eqb_sym, Bt2. reflexivity.
        + rewrite PV', Z.eqb_refl. apply Z.eqb_neq in Hab. rewrite Hab. reflexivity.
      - rewrite NX', Z.eqb_refl. apply Z.eqb_neq in Bt1, t1t2. rewrite (Z.eqb_sym t1 b), Bt1, t1t2. reflexivity.
      - rewrite PV', Z.eqb_refl. apply Z.eqb_neq in Bf, af. rewrite (Z.eqb_sym f b), Bf, (Z.eqb_sym f a), af. reflexivity. }
    assert (RB' : ring h' b []).
    { unfold ring. cbn. rewrite NX', PV', Z.eqb_refl. auto. }
    set (A' := upd (upd A a (la ++ lb)) b []).
    assert (VA : forall hd, A' hd = if hd =? b then [] else if hd =? a then la ++ lb else A hd) by reflexivity. clearbody A'.
    assert (SUB : forall y hd, In hd H -> In y (hd :: A' hd) -> exists hd2, In hd2 H /\ In y (hd2 :: A hd2) /\
                (hd2 = hd \/ hd = a /\ hd2 = b /\ In y lb)).
    { intros y hd Hh Hy. rewrite VA in Hy. destruct (Z.eqb_spec hd b) as [->|Nhb].
      - exists b. split; auto. split; auto. destruct Hy as [|[]]; left; auto.
      - destruct (Z.eqb_spec hd a) as [->|Nha]; [|exists hd; auto].
        destruct Hy as [Hy|Hy]; [exists a; split; auto; split; [left; auto|auto]|].
        apply in_app_or in Hy as [Hy|Hy]; [exists a; split; auto; split; [right; auto|auto]|].
        exists b. split; auto. split; [right; rewrite Eb; auto|auto]. }
    split; [|split; [|split]].
    + intros hd Hh. rewrite VA. destruct (Z.eqb_spec hd b) as [->|Nhb]; auto. destruct (Z.eqb_spec hd a) as [->|Nha]; auto.
      eapply ring_frame; [|apply I1; auto]. intros y Hy. rewrite NX', PV'.
      assert (y <> b) by (intros ->; apply Nhb; eapply I3; eauto; left; auto).
      assert (y <> a) by (intros ->; apply Nha; eapply I3; eauto; left; auto).
      assert (y <> t1) by (intros ->; apply Nha; eapply I3; eauto).
      assert (y <> t2) by (intros ->; apply Nhb; eapply I3; eauto; right; rewrite Eb; auto).
      assert (y <> f) by (intros ->; apply Nhb; eapply I3; eauto; right; rewrite Eb; left; auto).
      repeat match goal with H : y <> _ |- _ => apply Z.eqb_neq in H; rewrite H; clear H end. auto.
    + intros hd Hh. rewrite VA. destruct (Z.eqb_spec hd b) as [->|Nhb]; [repeat constructor; auto|].
      destruct (Z.eqb_spec hd a) as [->|Nha]; auto.
      change (a :: la ++ lb) with ((a :: la) ++ lb). apply NoDup_app_intro; auto; [inversion Nb; auto|].
      intros x X1 X2. apply (DIS x X1). right; auto.
    + intros x hd1 hd2 Hh1 Hh2 Hx1 Hx2.
      destruct (SUB x hd1 Hh1 Hx1) as (k1 & K1 & K2 & K3), (SUB x hd2 Hh2 Hx2) as (k2 & K4 & K5 & K6).
      assert (k1 = k2) by (eapply I3; eauto). subst k2.
      destruct K3 as [->|(-> & -> & K3)], K6 as [->|(-> & E6 & K6)]; auto.
      * exfalso. rewrite E6, VA, Z.eqb_refl in Hx1. destruct Hx1 as [<-|[]]. inversion_clear Nb; auto.
      * exfalso. rewrite VA, Z.eqb_refl in Hx2. destruct Hx2 as [<-|[]]. inversion_clear Nb; auto.
    + intros x [F1 F2].
      assert (FA : fresh H A x).
      { split; auto. intros hd Hh Hx. destruct (Z.eq_dec hd b) as [->|Nhb].
        - apply (F2 a Ha). rewrite VA, Z.eqb_refl. apply Z.eqb_neq in Hab. rewrite Hab. rewrite Eb in Hx. apply in_or_app; auto.
        - apply (F2 hd Hh). rewrite VA. apply Z.eqb_neq in Nhb. rewrite Nhb. destruct (Z.eqb_spec hd a) as [->|]; auto.
          apply in_or_app; auto. }
      assert (NI : forall y hd, In hd H -> In y (hd :: A hd) -> x <> y) by (intros y hd Hh Hy ->; exact (not_fresh_in H A y hd Hh Hy FA)).
      assert (x <> b) by (apply (NI b b); auto; left; auto). assert (x <> a) by (apply (NI a a); auto; left; auto).
      assert (x <> t1) by (apply (NI t1 a); auto). assert (x <> t2) by (apply (NI t2 b); auto; right; rewrite Eb; auto).
      assert (x <> f) by (apply (NI f b); auto; right; rewrite Eb; left; auto).
      rewrite NX', PV'. repeat match goal with H : x <> _ |- _ => apply Z.eqb_neq in H; rewrite H; clear H end. apply I4; auto.
Qed.

Lemma lists_step H A h o : lists_inv H A h -> sok H A o ->
  exists h', lstep h o = Some h' /\ lists_inv H (sstep A o) h'.
Proof.
  intros INV OK. pose proof INV as (I1 & I2 & I3 & I4). destruct o as [hd n|hd n|p n|p n|n|a b]; cbn [sok lstep sstep] in *.
  - destruct OK as [Hh F]. unfold list_add_head. rewrite (ring_first _ _ _ (I1 hd Hh)), list_add_eq.
    eexists; split; [reflexivity|].
    apply (inv_insert H A h hd [] (A hd) n); auto; try reflexivity.
  - destruct OK as [Hh F]. unfold list_add_tail. rewrite (ring_last _ _ _ (I1 hd Hh)), list_add_eq.
    eexists; split; [reflexivity|].
    apply (inv_insert H A h hd (A hd) [] n); auto; now rewrite app_nil_r.
  - destruct OK as [(hd & Hh & Hp) F]. destruct (ins_before_split p n (A hd) Hp) as (l1 & l2 & E1 & E2).
    assert (HA' : forall hd', In hd' H -> ins_before p n (A hd') = if hd' =? hd then l1 ++ n :: p :: l2 else A hd').
    { intros hd' Hh'. destruct (Z.eqb_spec hd' hd) as [->|Hd]; auto. apply ins_before_none. intros X. apply Hd. apply (I3 p hd' hd); auto; right; auto. }
    assert (NF : ~ In n (hd :: A hd)) by (intros X; exact (not_fresh_in H A n hd Hh X F)).
    pose proof (I1 hd Hh) as R. pose proof (I2 hd Hh) as N. rewrite E1 in R, N, NF.
    destruct (ring_insert h hd l1 (p :: l2) n R N NF) as (_ & _ & PV & _). cbn [List.hd] in PV.
    unfold list_add_before. rewrite PV, list_add_eq. eexists; split; [reflexivity|].
    exact (inv_insert H A h hd l1 (p :: l2) n _ INV Hh E1 F HA').
  - destruct OK as [(hd & Hh & Hp) F]. destruct (ins_after_split p n (A hd) Hp) as (l1 & l2 & E1 & E2).
    assert (E1' : A hd = (l1 ++ [p]) ++ l2) by (rewrite <- app_assoc; exact E1).
    assert (E2' : ins_after p n (A hd) = (l1 ++ [p]) ++ n :: l2) by (rewrite <- app_assoc; exact E2).
    assert (HA' : forall hd', In hd' H -> ins_after p n (A hd') = if hd' =? hd then (l1 ++ [p]) ++ n :: l2 else A hd').
    { intros hd' Hh'. destruct (Z.eqb_spec hd' hd) as [->|Hd]; auto. apply ins_after_none. intros X. apply Hd. apply (I3 p hd' hd); auto; right; auto. }
    assert (NF : ~ In n (hd :: A hd)) by (intros X; exact (not_fresh_in H A n hd Hh X F)).
    pose proof (I1 hd Hh) as R. pose proof (I2 hd Hh) as N. rewrite E1' in R, N, NF.
    destruct (ring_insert h hd (l1 ++ [p]) l2 n R N NF) as (_ & NX & _ & _). rewrite last_last in NX.
    unfold list_add_after. rewrite NX, list_add_eq. eexists; split; [reflexivity|].
    pose proof (inv_insert H A h hd (l1 ++ [p]) l2 n _ INV Hh E1' F HA') as Q. rewrite last_last in Q. exact Q.
  - destruct OK as (hd & Hh & Hp). apply in_split in Hp as (l1 & l2 & E).
    apply (inv_delete H A h hd l1 n l2); auto.
    intros hd' Hh'. destruct (Z.eqb_spec hd' hd) as [->|Hd].
    + rewrite E. apply del_split. rewrite <- E. specialize (I2 hd Hh). inversion I2; auto.
    + apply del_none. intros X. apply Hd. apply (I3 n hd' hd); auto; [right; auto|]. right. rewrite E. apply in_or_app; right; left; auto.
  - destruct OK as (Ha & Hb & Hab). apply inv_merge; auto.
Qed.

Lemma lists_run H ops : forall A h A', lists_inv H A h -> sruns H A ops A' ->
  exists h', lrun h ops = Some h' /\ lists_inv H A' h'.
Proof.
  induction ops as [|o ops IH]; intros A h A' INV R; cbn [lrun sruns] in *.
  - subst. eauto.
  - destruct R as [OK R]. destruct (lists_step H A h o INV OK) as (h1 & -> & INV1). eauto.
Qed.

Lemma linit_inv H : NoDup H -> lists_inv H (fun _ => []) (linit H).
Proof.
  intros ND.
  assert (K : forall l h x, (nx (fold_left list_init_head l h) x = if existsb (Z.eqb x) l then Some x else nx h x) /\
                            (pv (fold_left list_init_head l h) x = if existsb (Z.eqb x) l then Some x else pv h x)).
  { induction l as [|a l IH]; intros h x; cbn [fold_left existsb]; auto.
    destruct (IH (list_init_head h a) x) as [-> ->]. cbn. unfold upd. destruct (Z.eqb_spec x a) as [->|]; cbn; destruct (existsb _ l); auto. }
  unfold linit. split; [|split; [|split]].
  - intros hd Hh. unfold ring. cbn. destruct (K H {| nx := fun _ => None; pv := fun _ => None |} hd) as [-> ->].
    assert (E : existsb (Z.eqb hd) H = true) by (apply existsb_exists; exists hd; split; auto; apply Z.eqb_refl). rewrite E. auto.
  - intros hd Hh. repeat constructor. auto.
  - intros x hd1 hd2 _ _ [<-|[]] [<-|[]]. auto.
  - intros x [F _]. destruct (K H {| nx := fun _ => None; pv := fun _ => None |} x) as [-> ->].
    destruct (existsb (Z.eqb x) H) eqn:E; auto. apply existsb_exists in E as (y & Hy & E). apply Z.eqb_eq in E. subst. contradiction.
Qed.

Definition lists_view (H : list Z) (A : lstate) (h : lheap) : Prop :=
  (forall hd fuel, In hd H -> (length (A hd) < fuel)%nat ->
     walk_next fuel h hd hd = Some (A hd) /\ walk_prev fuel h hd hd = Some (rev (A hd))) /\
  (forall hd, In hd H -> (list_is_empty h hd = true <-> A hd = [])) /\
  (forall hd x, In hd H -> x <> hd -> (list_is_first h hd x = true <-> exists l, A hd = x :: l)) /\
  (forall hd x, In hd H -> x <> hd -> (list_is_last h hd x = true <-> exists l, A hd = l ++ [x])) /\
  (forall x, ~ In x H -> (list_is_node_added h x = true <-> placed H A x)).

Lemma lists_inv_view H A h : lists_inv H A h -> lists_view H A h.
Proof.
  intros (I1 & I2 & I3 & I4). split; [|split; [|split; [|split]]].
  - intros hd fuel Hh HF. apply ring_walk; auto.
  - intros hd Hh. rewrite (ring_empty h hd (A hd)) by auto. destruct (A hd); split; congruence.
  - intros hd x Hh Hx. unfold list_is_first. rewrite (ring_first _ _ _ (I1 hd Hh)). cbn [ptr_eqb].
    destruct (A hd) as [|y l]; cbn [List.hd].
    + split; [|intros [l E]; discriminate]. intros E. apply Z.eqb_eq in E. congruence.
    + rewrite Z.eqb_eq. split; [intros ->; eauto|]. intros [l' E]. congruence.
  - intros hd x Hh Hx. unfold list_is_last. rewrite (ring_last _ _ _ (I1 hd Hh)). cbn [ptr_eqb].
    destruct (A hd) as [|y l] using rev_ind.
    + cbn. split; [|intros [l E]; destruct l; discriminate]. intros E. apply Z.eqb_eq in E. congruence.
    + rewrite last_last, Z.eqb_eq. split; [intros ->; eauto|]. intros [l' E]. apply app_inj_tail in E. apply E.
  - intros x Hx. unfold list_is_node_added. split.
    + intros E. destruct (existsb (fun hd => existsb (Z.eqb x) (A hd)) H) eqn:EX.
      * apply existsb_exists in EX as (hd & Hh & EX). apply existsb_exists in EX as (y & Hy & EX). apply Z.eqb_eq in EX. subst. exists hd; auto.
      * exfalso. assert (F : fresh H A x).
        { split; auto. intros hd Hh Hin. assert (existsb (fun hd => existsb (Z.eqb x) (A hd)) H = true); [|congruence].
          apply existsb_exists. exists hd. split; auto. apply existsb_exists. exists x. split; auto. apply Z.eqb_refl. }
        destruct (I4 x F) as [E1 E2]. rewrite E1 in E. discriminate.
    + intros (hd & Hh & Hin). destruct (ring_ptrs h hd (A hd) x (I1 hd Hh)) as (a & b & -> & -> & _); [right; auto|]. reflexivity.
Qed.
