(** Rebalancing after insert and remove, and the removal of a tree node. *)
From Coq Require Import Permutation.
From Verif Require Import Base ListModel ListProofs AvlModel AvlSpec AvlTreeProofs.

Lemma s8_id z : -128 <= z < 128 -> s8 z = z.
Proof. intros. unfold s8. rewrite Z.mod_small by lia. lia. Qed.
Ltac rot_const :=
  repeat match goal with
  | |- context [rr_x ?a ?b] => let v := eval vm_compute in (rr_x a b) in change (rr_x a b) with v
  | |- context [rr_l ?a ?b] => let v := eval vm_compute in (rr_l a b) in change (rr_l a b) with v
  | |- context [rl_x ?a ?b] => let v := eval vm_compute in (rl_x a b) in change (rl_x a b) with v
  | |- context [rl_r ?a ?b] => let v := eval vm_compute in (rl_r a b) in change (rl_r a b) with v
  | H : context [rr_x ?a ?b] |- _ => let v := eval vm_compute in (rr_x a b) in change (rr_x a b) with v in H
  | H : context [rr_l ?a ?b] |- _ => let v := eval vm_compute in (rr_l a b) in change (rr_l a b) with v in H
  | H : context [rl_x ?a ?b] |- _ => let v := eval vm_compute in (rl_x a b) in change (rl_x a b) with v in H
  | H : context [rl_r ?a ?b] |- _ => let v := eval vm_compute in (rl_r a b) in change (rl_r a b) with v in H
  end.

(** sub-tree in a context *)
Definition at_ctx (h : aheap) (c : list frame) (t : tree) : Prop :=
  rep h t (parc c) /\ repc h c (rootp t) /\ NoDup (inorder t ++ cnodes c).

Lemma at_ctx_holds h c t : at_ctx h c t <-> holds h (plug c t) /\ NoDup (inorder (plug c t)).
Proof.
  unfold at_ctx. rewrite holds_plug. split; intros (H1 & H2); [destruct H2 as [H2 H3]|destruct H1 as [H1 H1']].
  - split; [auto|]. eapply Permutation_NoDup; [symmetry; apply perm_plug|auto].
  - repeat (split; auto). eapply Permutation_NoDup; [apply perm_plug|auto].
Qed.
Lemma at_up h f c t : at_ctx h (f :: c) t <-> at_ctx h c (plug1 f t).
Proof. rewrite !at_ctx_holds. cbn [plug]. tauto. Qed.

Lemma set_bal_at h c l x b r v : at_ctx h c (N l x b r) -> -128 <= v < 128 ->
  at_ctx (set_bal h x v) c (N l x v r) /\ bal (set_bal h x v) x = v /\ same_rest h (set_bal h x v).
Proof.
  intros (R & RC & ND) HV. assert (HN := proj1 (nodup_cn _) ND).
  cbn [rep rootp] in R. destruct R as (R1 & R2 & R3 & R4 & R5 & R6).
  assert (AG : forall y, y <> x -> par (set_bal h x v) y = par h y /\ lft (set_bal h x v) y = lft h y /\ rgt (set_bal h x v) y = rgt h y /\ bal (set_bal h x v) y = bal h y).
  { intros y Hy. cbn. repeat split; auto. apply upd_other; auto. }
  assert (BX : bal (set_bal h x v) x = v) by (cbn; rewrite upd_same; apply s8_id; auto).
  split; [|split; [auto|repeat split]].
  split; [|split; [|exact ND]].
  - cbn [rep rootp]. rewrite BX. cbn [set_bal par lft rgt]. repeat (split; [assumption||reflexivity|]).
    split; (eapply rep_agree; [|eassumption]); intros y Hy; apply AG; intros ->; dis HN x.
  - eapply repc_agree; [| |exact RC]; [reflexivity|]. intros y Hy. apply AG. intros ->. dis HN x.
Qed.

Lemma rot_right_at h c ll l lb lr x b r : at_ctx h c (N (N ll l lb lr) x b r) ->
  exists h', avl_rotate_right h x = Some h' /\ at_ctx h' c (N ll l (rr_l b lb) (N lr x (rr_x b lb) r)) /\ same_rest h h'.
Proof.
  intros (R & RC & ND). destruct (rotate_right_ok c h ll l lb lr x b r R RC ND) as (h' & E & R' & RC' & S').
  exists h'. split; [auto|]. split; [|auto]. split; [auto|]. split; [auto|].
  cbn [inorder] in *. rewrite <- !app_assoc in *. cbn [app] in *. rewrite <- ?app_assoc in *. exact ND.
Qed.
Lemma rot_left_at h c ll l lb lr x b r : at_ctx h c (N r x b (N lr l lb ll)) ->
  exists h', avl_rotate_left h x = Some h' /\ at_ctx h' c (N (N r x (rl_x b lb) lr) l (rl_r b lb) ll) /\ same_rest h h'.
Proof.
  intros (R & RC & ND). destruct (rotate_left_ok c h ll l lb lr x b r R RC ND) as (h' & E & R' & RC' & S').
  exists h'. split; [auto|]. split; [|auto]. split; [auto|]. split; [auto|].
  cbn [inorder] in *. rewrite <- !app_assoc in *. cbn [app] in *. rewrite <- ?app_assoc in *. exact ND.
Qed.

Lemma at_bal h c l x b r : at_ctx h c (N l x b r) -> bal h x = b.
Proof. intros (R & _). apply R. Qed.
Lemma at_par h c l x b r : at_ctx h c (N l x b r) -> par h x = parc c.
Proof. intros (R & _). apply R. Qed.
Lemma at_lft h c l x b r : at_ctx h c (N l x b r) -> lft h x = rootp l.
Proof. intros (R & _). apply R. Qed.
Lemma at_rgt h c l x b r : at_ctx h c (N l x b r) -> rgt h x = rootp r.
Proof. intros (R & _). apply R. Qed.
Lemma at_not_left h c l p pb ll x b r : at_ctx h c (N l p pb (N ll x b r)) -> ptr_eqb (Some x) (lft h p) = false.
Proof.
  intros A. rewrite (at_lft _ _ _ _ _ _ A). destruct A as (_ & _ & ND). assert (HN := proj1 (nodup_cn _) ND).
  apply ptr_eqb_root_false. intros Hx. dis HN x.
Qed.

Definition good_result (h : aheap) (io : list Z) (r : option aheap) : Prop :=
  exists h' T', r = Some h' /\ holds h' T' /\ NoDup (inorder T') /\ balanced T' /\ inorder T' = io /\ same_rest h h'.

Lemma finish h h' c t io : at_ctx h' c t -> balanced t -> ctxok c (height t) -> inorder (plug c t) = io -> same_rest h h' ->
  good_result h io (Some h').
Proof.
  intros A B C E S. apply at_ctx_holds in A as [A1 A2]. exists h', (plug c t). split; [auto|]. split; [auto|]. split; [auto|].
  split; [apply balanced_plug; auto|]. auto.
Qed.
Lemma good_trans h h1 io r : same_rest h h1 -> good_result h1 io r -> good_result h io r.
Proof. intros S (h' & T' & H1 & H2 & H3 & H4 & H5 & H6). exists h', T'. repeat (split; [assumption|]). eapply same_rest_trans; eauto. Qed.

Lemma ctxok_eq c n m : ctxok c n -> n = m -> ctxok c m. Proof. now intros H <-. Qed.
Ltac io := rewrite ?inorder_plug; cbn [inorder lpart rpart app]; repeat (progress (rewrite <- ?app_assoc; cbn [app])); reflexivity.
Ltac hts := repeat match goal with t : tree |- _ => lazymatch goal with _ : 0 <= height t |- _ => fail | _ => pose proof (height_nonneg t) end end.
Ltac bl := cbn [balanced height] in *; hts; repeat split; try tauto; lia.

Lemma post_insert_ok fuel : forall c h l x b r n, (length c < fuel)%nat ->
  at_ctx h c (N l x b r) -> balanced (N l x b r) -> b <> 0 -> height (N l x b r) = n + 1 -> ctxok c n ->
  good_result h (inorder (plug c (N l x b r))) (post_insert fuel h x).
Proof.
  induction fuel as [|f IH]; intros c h l x b r n LF A B B0 HH CO; [cbn in LF; lia|].
  cbn [post_insert]. rewrite (at_par _ _ _ _ _ _ A).
  destruct c as [|[p pb pr|pl p pb] c]; cbn [parc fnode].
  - eapply (finish h h [] (N l x b r)); cbn; auto using same_rest_refl.
  - cbn [ctxok] in CO. destruct CO as (Bpr & Epb & Rpb & CO). cbn [length] in LF.
    apply at_up in A. cbn [plug1] in A. rewrite (at_lft _ _ _ _ _ _ A), (at_bal _ _ _ _ _ _ A). cbn [rootp ptr_eqb]. rewrite Z.eqb_refl.
    destruct (set_bal_at h c _ p pb pr (pb - 1) A) as (A1 & BX & S1); [lia|]. rewrite BX.
    set (h1 := set_bal h p (pb - 1)) in *. clearbody h1. change (plug (FL p pb pr :: c) (N l x b r)) with (plug c (N (N l x b r) p pb pr)).
    apply (good_trans h h1); auto. clear S1.
    assert (CASES : pb = 1 \/ pb = 0 \/ pb = -1) by lia. destruct CASES as [->|[->| ->]]; cbn [Z.eqb Z.sub Z.opp Z.add Z.pos_sub Pos.add Pos.eqb] in *.
    + change (1 - 1 =? 0) with true. cbn iota. eapply finish; eauto using same_rest_refl; [bl|eapply ctxok_eq; [exact CO|bl]|io].
    + change (0 - 1 =? 0) with false. change (0 - 1 =? -1) with true. cbn iota. change (0 - 1) with (-1) in *.
      replace (inorder (plug c (N (N l x b r) p 0 pr))) with (inorder (plug c (N (N l x b r) p (-1) pr))) by io.
      apply (IH c h1 _ p (-1) pr (n + 1)); auto; [lia|bl|lia|bl|]. eapply ctxok_eq; [exact CO|bl].
    + change (-1 - 1 =? 0) with false. change (-1 - 1 =? -1) with false. cbn iota. change (-1 - 1) with (-2) in *.
      assert (AB : bal h1 x = b) by (eapply (at_bal h1 (FL p (-2) pr :: c)); apply at_up; exact A1). rewrite AB; clear AB.
      destruct (Z.eqb_spec b (-1)) as [->|Nb].
      * destruct (rot_right_at _ _ _ _ _ _ _ _ _ A1) as (h2 & -> & A2 & S2). rot_const.
        eapply finish; [exact A2| | |io|exact S2]; [bl|eapply ctxok_eq; [exact CO|bl]].
      * assert (b = 1) by bl. subst b. destruct r as [|a m mb r2]; [exfalso; bl|].
        pose proof A1 as A1'. apply (at_up h1 (FL p (-2) pr)) in A1'.
        destruct (rot_left_at h1 _ _ _ _ _ _ _ _ A1') as (h2 & -> & A2 & S2). 
        pose proof A2 as A3. apply at_up in A3. cbn [plug1] in A3.
        assert (PX : par h2 x = Some m) by (eapply (at_par h2 (FL m (rl_r 1 mb) r2 :: FL p (-2) pr :: c)); apply at_up; exact A2).
        rewrite PX. rewrite (at_par _ _ _ _ _ _ A2). cbn [parc fnode].
        destruct (rot_right_at _ _ _ _ _ _ _ _ _ A3) as (h3 & E3 & A4 & S3). rewrite E3.
        assert (CASES : mb = 1 \/ mb = 0 \/ mb = -1) by bl. destruct CASES as [->|[->| ->]]; rot_const;
        (eapply finish; [exact A4| | |io|eapply same_rest_trans; eauto]; [bl|eapply ctxok_eq; [exact CO|bl]]).
  - cbn [ctxok] in CO. destruct CO as (Bpl & Epb & Rpb & CO). cbn [length] in LF.
    apply at_up in A. cbn [plug1] in A. rewrite (at_not_left _ _ _ _ _ _ _ _ _ A), (at_bal _ _ _ _ _ _ A).
    destruct (set_bal_at h c _ p pb _ (pb + 1) A) as (A1 & BX & S1); [lia|]. rewrite BX.
    set (h1 := set_bal h p (pb + 1)) in *. clearbody h1. change (plug (FR pl p pb :: c) (N l x b r)) with (plug c (N pl p pb (N l x b r))).
    apply (good_trans h h1); auto. clear S1.
    assert (CASES : pb = 1 \/ pb = 0 \/ pb = -1) by lia. destruct CASES as [->|[->| ->]].
    + change (1 + 1 =? 0) with false. change (1 + 1 =? 1) with false. cbn iota. change (1 + 1) with 2 in *.
      assert (AB : bal h1 x = b) by (eapply (at_bal h1 (FR pl p 2 :: c)); apply at_up; exact A1). rewrite AB; clear AB.
      destruct (Z.eqb_spec b 1) as [->|Nb].
      * destruct (rot_left_at _ _ _ _ _ _ _ _ _ A1) as (h2 & -> & A2 & S2). rot_const.
        eapply finish; [exact A2| | |io|exact S2]; [bl|eapply ctxok_eq; [exact CO|bl]].
      * assert (b = -1) by bl. subst b. destruct l as [|a m mb l2]; [exfalso; bl|].
        pose proof A1 as A1'. apply (at_up h1 (FR pl p 2)) in A1'.
        destruct (rot_right_at h1 _ _ _ _ _ _ _ _ A1') as (h2 & -> & A2 & S2). 
        pose proof A2 as A3. apply at_up in A3. cbn [plug1] in A3.
        assert (PX : par h2 x = Some m) by (eapply (at_par h2 (FR a m (rr_l (-1) mb) :: FR pl p 2 :: c)); apply at_up; exact A2).
        rewrite PX. rewrite (at_par _ _ _ _ _ _ A2). cbn [parc fnode].
        destruct (rot_left_at _ _ _ _ _ _ _ _ _ A3) as (h3 & E3 & A4 & S3). rewrite E3.
        assert (CASES : mb = 1 \/ mb = 0 \/ mb = -1) by bl. destruct CASES as [->|[->| ->]]; rot_const;
        (eapply finish; [exact A4| | |io|eapply same_rest_trans; eauto]; [bl|eapply ctxok_eq; [exact CO|bl]]).
    + change (0 + 1 =? 0) with false. change (0 + 1 =? 1) with true. cbn iota. change (0 + 1) with 1 in *.
      replace (inorder (plug c (N pl p 0 (N l x b r)))) with (inorder (plug c (N pl p 1 (N l x b r)))) by io.
      apply (IH c h1 _ p 1 _ (n + 1)); auto; [lia|bl|lia|bl|]. eapply ctxok_eq; [exact CO|bl].
    + change (-1 + 1 =? 0) with true. cbn iota. eapply finish; eauto using same_rest_refl; [bl|eapply ctxok_eq; [exact CO|bl]|io].
Qed.

(** the left (right) subtree of [parent] has lost one level *)
Definition shrink_left f (h : aheap) (parent : Z) : option aheap :=
  let h := set_bal h parent (bal h parent + 1) in
  if bal h parent =? 0 then avl_post_remove f h parent
  else if bal h parent =? 1 then Some h
  else
    r <- rgt h parent ;;
    if bal h r =? 0 then avl_rotate_left h parent
    else if bal h r =? 1 then
      h <- avl_rotate_left h parent ;;
      p <- par h parent ;; avl_post_remove f h p
    else
      h <- avl_rotate_right h r ;;
      h <- avl_rotate_left h parent ;;
      p <- par h parent ;; avl_post_remove f h p.
Definition shrink_right f (h : aheap) (parent : Z) : option aheap :=
  let h := set_bal h parent (bal h parent - 1) in
  if bal h parent =? 0 then avl_post_remove f h parent
  else if bal h parent =? -1 then Some h
  else
    l <- lft h parent ;;
    if bal h l =? 0 then avl_rotate_right h parent
    else if bal h l =? -1 then
      h <- avl_rotate_right h parent ;;
      p <- par h parent ;; avl_post_remove f h p
    else
      h <- avl_rotate_left h l ;;
      h <- avl_rotate_right h parent ;;
      p <- par h parent ;; avl_post_remove f h p.

Definition post_remove_spec f := forall c h l x b r, (length c < f)%nat ->
  at_ctx h c (N l x b r) -> balanced (N l x b r) -> ctxok c (height (N l x b r) + 1) ->
  good_result h (inorder (plug c (N l x b r))) (avl_post_remove f h x).

Lemma shrink_left_ok f : post_remove_spec f -> forall c h t p pb pr, (length c < f)%nat ->
  at_ctx h c (N t p pb pr) -> balanced t -> balanced pr -> pb = height pr - (height t + 1) -> -1 <= pb <= 1 ->
  ctxok c (1 + Z.max (height t + 1) (height pr)) ->
  good_result h (inorder (plug c (N t p pb pr))) (shrink_left f h p).
Proof.
  intros PR c h t p pb pr LF A Bt Bpr Epb Rpb CO. unfold shrink_left. rewrite (at_bal _ _ _ _ _ _ A).
  destruct (set_bal_at h c _ p pb pr (pb + 1) A) as (A1 & BX & S1); [lia|]. cbv zeta. rewrite BX.
  set (h1 := set_bal h p (pb + 1)) in *. clearbody h1. apply (good_trans h h1); auto. clear S1.
  assert (CASES : pb = 1 \/ pb = 0 \/ pb = -1) by lia. destruct CASES as [->|[->| ->]].
  - change (1 + 1 =? 0) with false. change (1 + 1 =? 1) with false. cbn iota. change (1 + 1) with 2 in *.
    rewrite (at_rgt _ _ _ _ _ _ A1). destruct pr as [|rl y yb rr]; [exfalso; bl|]. cbn [rootp].
    assert (AB : bal h1 y = yb) by (eapply (at_bal h1 (FR t p 2 :: c)); apply at_up; exact A1). rewrite AB; clear AB.
    destruct (Z.eqb_spec yb 0) as [->|N0]; [|destruct (Z.eqb_spec yb 1) as [->|N1]].
    + destruct (rot_left_at _ _ _ _ _ _ _ _ _ A1) as (h2 & -> & A2 & S2). rot_const.
      eapply finish; [exact A2| | |io|exact S2]; [bl|eapply ctxok_eq; [exact CO|bl]].
    + destruct (rot_left_at _ _ _ _ _ _ _ _ _ A1) as (h2 & -> & A2 & S2). rot_const.
      assert (PX : par h2 p = Some y) by (eapply (at_par h2 (FL y 0 rr :: c)); apply at_up; exact A2).
      rewrite PX. apply (good_trans h1 h2); auto.
      match type of A2 with at_ctx _ _ ?T => replace (inorder (plug c (N t p 1 (N rl y 1 rr)))) with (inorder (plug c T)) by io end.
      apply PR; auto; [bl|]. eapply ctxok_eq; [exact CO|bl].
    + assert (yb = -1) by bl. subst yb. destruct rl as [|a m mb b2]; [exfalso; bl|].
      pose proof A1 as A1'. apply (at_up h1 (FR t p 2)) in A1'.
      destruct (rot_right_at h1 _ _ _ _ _ _ _ _ A1') as (h2 & -> & A2 & S2).
      pose proof A2 as A3. apply at_up in A3. cbn [plug1] in A3.
      destruct (rot_left_at _ _ _ _ _ _ _ _ _ A3) as (h3 & -> & A4 & S3).
      assert (PX : par h3 p = Some m) by (eapply (at_par h3 (FL m _ _ :: c)); apply at_up; exact A4).
      rewrite PX. apply (good_trans h1 h3); [eapply same_rest_trans; eauto|].
      match type of A4 with at_ctx _ _ ?T => replace (inorder (plug c (N t p 1 (N (N a m mb b2) y (-1) rr)))) with (inorder (plug c T)) by io end.
      assert (CASES : mb = 1 \/ mb = 0 \/ mb = -1) by bl. destruct CASES as [->|[->| ->]]; rot_const;
      (apply PR; auto; [bl|]; eapply ctxok_eq; [exact CO|bl]).
  - change (0 + 1 =? 0) with false. change (0 + 1 =? 1) with true. cbn iota. 
    eapply finish; eauto using same_rest_refl; [bl|eapply ctxok_eq; [exact CO|bl]|io].
  - change (-1 + 1 =? 0) with true. cbn iota. change (-1 + 1) with 0 in *.
    replace (inorder (plug c (N t p (-1) pr))) with (inorder (plug c (N t p 0 pr))) by io.
    apply PR; auto; [bl|]. eapply ctxok_eq; [exact CO|bl].
Qed.

Lemma shrink_right_ok f : post_remove_spec f -> forall c h t p pb pl, (length c < f)%nat ->
  at_ctx h c (N pl p pb t) -> balanced t -> balanced pl -> pb = (height t + 1) - height pl -> -1 <= pb <= 1 ->
  ctxok c (1 + Z.max (height pl) (height t + 1)) ->
  good_result h (inorder (plug c (N pl p pb t))) (shrink_right f h p).
Proof.
  intros PR c h t p pb pl LF A Bt Bpl Epb Rpb CO. unfold shrink_right. rewrite (at_bal _ _ _ _ _ _ A).
  destruct (set_bal_at h c _ p pb _ (pb - 1) A) as (A1 & BX & S1); [lia|]. cbv zeta. rewrite BX.
  set (h1 := set_bal h p (pb - 1)) in *. clearbody h1. apply (good_trans h h1); auto. clear S1.
  assert (CASES : pb = -1 \/ pb = 0 \/ pb = 1) by lia. destruct CASES as [->|[->| ->]].
  - change (-1 - 1 =? 0) with false. change (-1 - 1 =? -1) with false. cbn iota. change (-1 - 1) with (-2) in *.
    rewrite (at_lft _ _ _ _ _ _ A1). destruct pl as [|rr y yb rl]; [exfalso; bl|]. cbn [rootp].
    assert (AB : bal h1 y = yb) by (eapply (at_bal h1 (FL p (-2) t :: c)); apply at_up; exact A1). rewrite AB; clear AB.
    destruct (Z.eqb_spec yb 0) as [->|N0]; [|destruct (Z.eqb_spec yb (-1)) as [->|N1]].
    + destruct (rot_right_at _ _ _ _ _ _ _ _ _ A1) as (h2 & -> & A2 & S2). rot_const.
      eapply finish; [exact A2| | |io|exact S2]; [bl|eapply ctxok_eq; [exact CO|bl]].
    + destruct (rot_right_at _ _ _ _ _ _ _ _ _ A1) as (h2 & -> & A2 & S2). rot_const.
      assert (PX : par h2 p = Some y) by (eapply (at_par h2 (FR rr y 0 :: c)); apply at_up; exact A2).
      rewrite PX. apply (good_trans h1 h2); auto.
      match type of A2 with at_ctx _ _ ?T => replace (inorder (plug c (N (N rr y (-1) rl) p (-1) t))) with (inorder (plug c T)) by io end.
      apply PR; auto; [bl|]. eapply ctxok_eq; [exact CO|bl].
    + assert (yb = 1) by bl. subst yb. destruct rl as [|a m mb b2]; [exfalso; bl|].
      pose proof A1 as A1'. apply (at_up h1 (FL p (-2) t)) in A1'.
      destruct (rot_left_at h1 _ _ _ _ _ _ _ _ A1') as (h2 & -> & A2 & S2).
      pose proof A2 as A3. apply at_up in A3. cbn [plug1] in A3.
      destruct (rot_right_at _ _ _ _ _ _ _ _ _ A3) as (h3 & -> & A4 & S3).
      assert (PX : par h3 p = Some m) by (eapply (at_par h3 (FR _ m _ :: c)); apply at_up; exact A4).
      rewrite PX. apply (good_trans h1 h3); [eapply same_rest_trans; eauto|].
      match type of A4 with at_ctx _ _ ?T => replace (inorder (plug c (N (N rr y 1 (N a m mb b2)) p (-1) t))) with (inorder (plug c T)) by io end.
      assert (CASES : mb = 1 \/ mb = 0 \/ mb = -1) by bl. destruct CASES as [->|[->| ->]]; rot_const;
      (apply PR; auto; [bl|]; eapply ctxok_eq; [exact CO|bl]).
  - change (0 - 1 =? 0) with false. change (0 - 1 =? -1) with true. cbn iota. 
    eapply finish; eauto using same_rest_refl; [bl|eapply ctxok_eq; [exact CO|bl]|io].
  - change (1 - 1 =? 0) with true. cbn iota. change (1 - 1) with 0 in *.
    replace (inorder (plug c (N pl p 1 t))) with (inorder (plug c (N pl p 0 t))) by io.
    apply PR; auto; [bl|]. eapply ctxok_eq; [exact CO|bl].
Qed.

Lemma post_remove_ok f : post_remove_spec f.
Proof.
  induction f as [|f IH]; intros c h l x b r LF A B CO; [cbn in LF; lia|].
  cbn [avl_post_remove]. rewrite (at_par _ _ _ _ _ _ A).
  destruct c as [|[p pb pr|pl p pb] c]; cbn [parc fnode].
  - eapply (finish h h [] (N l x b r)); cbn; auto using same_rest_refl.
  - cbn [ctxok] in CO. destruct CO as (Bpr & Epb & Rpb & CO). cbn [length] in LF.
    apply at_up in A. cbn [plug1] in A. pose proof (at_lft _ _ _ _ _ _ A) as AL. cbn [rootp] in AL.
    rewrite AL. cbn [ptr_eqb]. rewrite Z.eqb_refl.
    change (plug (FL p pb pr :: c) (N l x b r)) with (plug c (N (N l x b r) p pb pr)).
    apply shrink_left_ok; auto. lia.
  - cbn [ctxok] in CO. destruct CO as (Bpl & Epb & Rpb & CO). cbn [length] in LF.
    apply at_up in A. cbn [plug1] in A. rewrite (at_not_left _ _ _ _ _ _ _ _ _ A).
    change (plug (FR pl p pb :: c) (N l x b r)) with (plug c (N pl p pb (N l x b r))).
    apply shrink_right_ok; auto. lia.
Qed.

(** a subtree takes the place of its parent *)
Lemma cut_at h c x t' p0 : repc h c (Some x) -> rep h t' p0 -> ~ In x (cnodes c) -> NoDup (inorder t' ++ cnodes c) ->
  at_ctx (set_child (set_par_if h (rootp t') (parc c)) (parc c) x (rootp t')) c t' /\
  same_rest h (set_child (set_par_if h (rootp t') (parc c)) (parc c) x (rootp t')).
Proof.
  intros RC R NI ND. assert (HN := proj1 (nodup_cn _) ND).
  destruct (set_par_if_other h (rootp t') (parc c)) as (O1 & O2 & O3 & O4 & O5 & O6 & O7).
  set (h1 := set_par_if h (rootp t') (parc c)) in *.
  assert (P1 : forall y, par h1 y = if ptr_eqb (Some y) (rootp t') then parc c else par h y) by (intros; apply set_par_if_par).
  clearbody h1. split.
  2:{ unfold same_rest. rewrite set_child_ls, set_child_fol, set_child_cnt, O5, O6, O7. auto. }
  assert (NP : forall y, ~ In y (cnodes c) -> parc c <> Some y) by (intros y Hy E; apply parc_in in E; auto).
  split; [|split; [|exact ND]].
  - eapply rep_reparent; [eapply NoDup_app_l; eauto| |exact R].
    intros y Hy. assert (parc c <> Some y) by (apply NP; intros Hz; dis HN y).
    rewrite set_child_par, set_child_bal, set_child_lft, set_child_rgt, O1, O2, O3, P1 by auto. auto.
  - apply repc_set_child; auto; [|eapply NoDup_app_r; eauto].
    eapply repc_agree; [| |exact RC]; [auto|]. intros y Hy. rewrite O1, O2, O3, P1.
    rewrite ptr_eqb_root_false by (intros Hz; dis HN y). auto.
Qed.

Lemma set_child_par_if h q o n p v : set_child (set_par_if h p v) q o n = set_par_if (set_child h q o n) p v.
Proof. destruct p, q; cbn; auto. destruct (ptr_eqb _ _); reflexivity. Qed.

(** another node takes over position, children and balance of [x] *)
Definition take_over (h : aheap) (x m : Z) : aheap :=
  let parent := par h x in
  let h := set_bal h m (bal h x) in
  let h := set_par h m parent in
  let h := set_lft h m (lft h x) in
  let h := set_rgt h m (rgt h x) in
  let h := set_par_if h (lft h m) (Some m) in
  let h := set_par_if h (rgt h m) (Some m) in
  set_child h parent x (Some m).

Lemma take_over_ok h c l x b r m : at_ctx h c (N l x b r) -> -128 <= b < 128 -> ~ In m (inorder (N l x b r) ++ cnodes c) ->
  at_ctx (take_over h x m) c (N l m b r) /\ same_rest h (take_over h x m).
Proof.
  intros (R & RC & ND) HB NI. assert (HN := proj1 (nodup_cn _) ND).
  cbn [rep rootp] in R. destruct R as (Px & Lx & Rx & Bx & Rl & Rr).
  assert (MX : m <> x) by (intros ->; apply NI; cbn; rewrite <- app_assoc; apply in_or_app; right; left; auto).
  assert (MC : ~ In m (cnodes c)) by (intros Hy; apply NI, in_or_app; auto).
  assert (ML : ~ In m (inorder l)) by (intros Hy; apply NI; cbn; rewrite <- app_assoc; apply in_or_app; auto).
  assert (MR : ~ In m (inorder r)) by (intros Hy; apply NI; cbn; rewrite <- app_assoc; apply in_or_app; right; right; apply in_or_app; auto).
  assert (XC : ~ In x (cnodes c)) by (intros Hy; dis HN x).
  assert (XM : x <> m) by congruence.
  unfold take_over. cbv zeta. cbn [set_bal set_par set_lft set_rgt lft rgt]. 
  rewrite Px, Lx, Bx, Rx.
  set (h1 := set_rgt (set_lft (set_par (set_bal h m b) m (parc c)) m (rootp l)) m (rootp r)).
  rewrite !upd_same.
  destruct (set_par_if_other h1 (rootp l) (Some m)) as (O1 & O2 & O3 & O4 & O5 & O6 & O7).
  rewrite O2. change (rgt h1) with (upd (rgt h) m (rootp r)). rewrite upd_same.
  set (h2 := set_par_if h1 (rootp l) (Some m)) in *.
  assert (P2 : forall y, par h2 y = if ptr_eqb (Some y) (rootp l) then Some m else if y =? m then parc c else par h y).
  { intros y. unfold h2. rewrite set_par_if_par. reflexivity. }
  destruct (set_par_if_other h2 (rootp r) (Some m)) as (Q1 & Q2 & Q3 & Q4 & Q5 & Q6 & Q7).
  set (h3 := set_par_if h2 (rootp r) (Some m)) in *.
  assert (P3 : forall y, par h3 y = if ptr_eqb (Some y) (rootp r) then Some m else if ptr_eqb (Some y) (rootp l) then Some m else if y =? m then parc c else par h y).
  { intros y. unfold h3. rewrite set_par_if_par, P2. reflexivity. }
  assert (L3 : forall y, lft h3 y = if y =? m then rootp l else lft h y) by (intros; rewrite Q1, O1; reflexivity).
  assert (R3 : forall y, rgt h3 y = if y =? m then rootp r else rgt h y) by (intros; rewrite Q2, O2; reflexivity).
  assert (B3 : forall y, bal h3 y = if y =? m then b else bal h y).
  { intros; rewrite Q3, O3. change (bal h1) with (upd (bal h) m (s8 b)). rewrite s8_id by auto. reflexivity. }
  assert (T3 : root h3 = root h) by (rewrite Q4, O4; reflexivity).
  assert (SR : ls h3 = ls h /\ fol h3 = fol h /\ cnt h3 = cnt h) by (rewrite Q5, Q6, Q7, O5, O6, O7; repeat split).
  clearbody h3. split.
  2:{ unfold same_rest. rewrite set_child_ls, set_child_fol, set_child_cnt. exact SR. }
  assert (NP : forall y, ~ In y (cnodes c) -> parc c <> Some y) by (intros y Hy E; apply parc_in in E; auto).
  split; [|split].
  - cbn [rep]. rewrite set_child_par, set_child_bal, set_child_lft, set_child_rgt by auto.
    rewrite P3, L3, R3, B3, !ptr_eqb_root_false, Z.eqb_refl by auto. repeat (split; [reflexivity|]). split.
    + eapply rep_reparent; [| |exact Rl].
      * apply nodup_cn. intros z. pose proof (HN z) as Hz. cbn [inorder] in Hz. cncase Hz; lia.
      * intros y Hy. assert (parc c <> Some y) by (apply NP; intros Hz; dis HN y).
        rewrite set_child_par, set_child_bal, set_child_lft, set_child_rgt by auto.
        assert (E : y =? m = false) by (apply Z.eqb_neq; intros ->; auto). rewrite P3, L3, R3, B3, E.
        rewrite (ptr_eqb_root_false r y) by (intros Hz; dis HN y). auto.
    + eapply rep_reparent; [| |exact Rr].
      * apply nodup_cn. intros z. pose proof (HN z) as Hz. cbn [inorder] in Hz. cncase Hz; lia.
      * intros y Hy. assert (parc c <> Some y) by (apply NP; intros Hz; dis HN y).
        rewrite set_child_par, set_child_bal, set_child_lft, set_child_rgt by auto.
        assert (E : y =? m = false) by (apply Z.eqb_neq; intros ->; auto). rewrite P3, L3, R3, B3, E.
        rewrite (ptr_eqb_root_false l y) by (intros Hz; dis HN y). auto.
  - cbn [rootp]. apply repc_set_child; auto; [|eapply NoDup_app_r; eauto].
    eapply repc_agree; [| |exact RC]; [auto|]. intros y Hy.
    assert (E : y =? m = false) by (apply Z.eqb_neq; intros ->; auto). rewrite P3, L3, R3, B3, E.
    rewrite !ptr_eqb_root_false by (intros Hz; dis HN y). auto.
  - apply nodup_cn. intros z. pose proof (HN z) as Hz. cbn [inorder] in Hz |- *. cbn [inorder] in NI. repeat rewrite count_occ_app in Hz; repeat rewrite count_occ_app.
    destruct (Z.eq_dec m z) as [->|Nz].
    + rewrite cn_cons_same. apply (count_occ_not_In Z.eq_dec) in ML, MR, MC. lia.
    + rewrite cn_cons_other by auto. destruct (Z.eq_dec x z) as [->|]; [rewrite cn_cons_same in Hz|rewrite cn_cons_other in Hz by auto]; lia.
Qed.

Lemma ctx_len c : forall t, (length c + length (inorder t) <= length (inorder (plug c t)))%nat.
Proof.
  induction c as [|f c IH]; intros t; cbn [plug length]; auto.
  specialize (IH (plug1 f t)). destruct f; cbn [plug1 inorder] in IH; rewrite app_length in IH; cbn [length] in IH; cbn [plug1]; lia.
Qed.

Lemma at_left h c l x b r f : parc c = Some f -> at_ctx h c (N l x b r) ->
  exists c', (exists pb pr, c = FL f pb pr :: c' /\ ptr_eqb (lft h f) (Some x) = true) \/
             (exists pb pl, c = FR pl f pb :: c' /\ ptr_eqb (lft h f) (Some x) = false).
Proof.
  intros E A. destruct c as [|[p pb pr|pl p pb] c]; cbn in E; [discriminate| |]; injection E as ->; exists c.
  - left. exists pb, pr. split; auto. apply at_up in A. rewrite (at_lft _ _ _ _ _ _ A). cbn. apply Z.eqb_refl.
  - right. exists pb, pl. split; auto. apply at_up in A. pose proof (at_not_left _ _ _ _ _ _ _ _ _ A) as Q.
    destruct (lft h f); cbn in *; auto. now rewrite Z.eqb_sym.
Qed.

Lemma worker1_ok fuel h c l x b r : (S (length c) < fuel)%nat -> at_ctx h c (N l x b r) -> balanced (plug c (N l x b r)) ->
  l = L \/ r = L -> good_result h (lpart c ++ inorder l ++ inorder r ++ rpart c) (avl_remove_worker fuel h x).
Proof.
  intros LF A B LR. destruct fuel as [|f]; [lia|]. cbn [avl_remove_worker].
  rewrite (at_par _ _ _ _ _ _ A), (at_lft _ _ _ _ _ _ A), (at_rgt _ _ _ _ _ _ A).
  apply balanced_plug in B as [Bt CO]. pose proof A as (R & RC & ND). assert (HN := proj1 (nodup_cn _) ND).
  assert (XC : ~ In x (cnodes c)) by (intros Hy; dis HN x).
  assert (NDl : NoDup (inorder l ++ cnodes c)) by (apply nodup_cn; intros z; pose proof (HN z) as Hz; cbn [inorder] in Hz; repeat rewrite count_occ_app in Hz; repeat rewrite count_occ_app; lia).
  assert (NDr : NoDup (inorder r ++ cnodes c)).
  { apply nodup_cn; intros z; pose proof (HN z) as Hz; cbn [inorder] in Hz; repeat rewrite count_occ_app in Hz; repeat rewrite count_occ_app.
    destruct (Z.eq_dec x z) as [->|]; [rewrite cn_cons_same in Hz|rewrite cn_cons_other in Hz by auto]; lia. }
  cbn [rep rootp] in R, RC. destruct R as (_ & _ & _ & _ & Rl & Rr).
  destruct l as [|l1 y yb l2], r as [|r1 z zb r2]; cbn [rootp].
  - (* leaf *)
    cbn [inorder app]. destruct (cut_at h c x L (Some x) RC I XC) as (A1 & S1); [auto|]. cbn [rootp set_par_if] in A1, S1.
    destruct c as [|fr c]; cbn [parc].
    + cbn [set_child parc] in A1. eapply (finish h _ [] L); [exact A1|exact I|exact I|reflexivity|exact S1].
    + destruct fr as [p pb pr|pl p pb]; cbn [fnode length] in *.
      * pose proof A as AU. apply at_up in AU. pose proof (at_lft _ _ _ _ _ _ AU) as LP. cbn [rootp] in LP.
        cbn [parc fnode set_child] in A1, S1. rewrite LP in A1, S1 |- *. cbn [ptr_eqb] in *. rewrite Z.eqb_refl in *.
        set (h1 := set_lft h p None) in *. clearbody h1. cbn [ctxok height] in CO. destruct CO as (Bpr & Epb & Rpb & CO).
        apply at_up in A1. cbn [plug1] in A1. apply (good_trans h h1); auto.
        replace (lpart (FL p pb pr :: c) ++ rpart (FL p pb pr :: c)) with (inorder (plug c (N L p pb pr))) by io.
        pose proof (shrink_left_ok f (post_remove_ok f) c h1 L p pb pr ltac:(lia) A1 I Bpr Epb Rpb CO) as Q.
        unfold shrink_left in Q. cbv zeta in *. 
        destruct (Z.eqb_spec (bal (set_bal h1 p (bal h1 p + 1)) p) 1) as [E|E]; [rewrite E in Q; exact Q|].
        exact Q.
      * pose proof (at_left h (FR pl p pb :: c) L x b L p eq_refl A) as (c' & [(?&?&E&_)|(?&?&E&LP)]); [discriminate|]. clear E.
        cbn [parc fnode set_child] in A1, S1. rewrite LP in A1, S1 |- *.
        set (h1 := set_rgt h p None) in *. clearbody h1. cbn [ctxok height] in CO. destruct CO as (Bpl & Epb & Rpb & CO).
        apply at_up in A1. cbn [plug1] in A1. apply (good_trans h h1); auto.
        replace (lpart (FR pl p pb :: c) ++ rpart (FR pl p pb :: c)) with (inorder (plug c (N pl p pb L))) by io.
        pose proof (shrink_right_ok f (post_remove_ok f) c h1 L p pb pl ltac:(lia) A1 I Bpl Epb Rpb CO) as Q.
        unfold shrink_right in Q. cbv zeta in *. 
        destruct (Z.eqb_spec (bal (set_bal h1 p (bal h1 p - 1)) p) (-1)) as [E|E]; [rewrite E in Q; exact Q|].
        exact Q.
  - (* right child only *)
    destruct (cut_at h c x _ (Some x) RC Rr XC NDr) as (A1 & S1). cbn [rootp set_par_if] in A1, S1.
    replace (lpart c ++ inorder L ++ inorder (N r1 z zb r2) ++ rpart c) with (inorder (plug c (N r1 z zb r2))) by io.
    cbn [balanced height] in Bt. destruct c as [|fr c]; cbn [parc].
    + change (set_par (set_root h (Some z)) z None) with (set_child (set_par h z (parc [])) (parc []) x (Some z)).
      eapply (finish h _ [] _); [exact A1|bl|exact I|reflexivity|exact S1].
    + eapply good_trans; [exact S1|]. apply post_remove_ok; auto; [lia|bl|]. eapply ctxok_eq; [exact CO|bl].
  - (* left child only *)
    destruct (cut_at h c x _ (Some x) RC Rl XC NDl) as (A1 & S1). cbn [rootp set_par_if] in A1, S1.
    replace (lpart c ++ inorder (N l1 y yb l2) ++ inorder L ++ rpart c) with (inorder (plug c (N l1 y yb l2))) by io.
    cbn [balanced height] in Bt. destruct c as [|fr c]; cbn [parc].
    + change (set_par (set_root h (Some y)) y None) with (set_child (set_par h y (parc [])) (parc []) x (Some y)).
      eapply (finish h _ [] _); [exact A1|bl|exact I|reflexivity|exact S1].
    + eapply good_trans; [exact S1|]. apply post_remove_ok; auto; [lia|bl|]. eapply ctxok_eq; [exact CO|bl].
  - destruct LR; discriminate.
Qed.

Lemma local_min_ok h : forall r fuel p y, rep h r p -> rootp r = Some y -> (length (inorder r) <= fuel)%nat ->
  exists cm m mb mr rest, r = plug cm (N L m mb mr) /\ avl_local_min fuel h y = Some m /\ inorder r = m :: rest.
Proof.
  induction r as [|l IHl x b r IHr]; intros fuel p y R E LF; [discriminate|]. injection E as <-.
  cbn [rep inorder] in *. rewrite app_length in LF. cbn [length] in LF. destruct fuel as [|f]; [lia|]. cbn [avl_local_min].
  destruct R as (_ & -> & _ & _ & Rl & _). destruct l as [|l1 z zb l2]; cbn [rootp].
  - exists [], x, b, r, (inorder r). auto.
  - destruct (IHl f (Some x) z Rl eq_refl ltac:(lia)) as (cm & m & mb & mr & rest & E1 & E2 & E3).
    exists (cm ++ [FL x b r]), m, mb, mr, (rest ++ x :: inorder r). rewrite plug_app, <- E1. cbn [plug plug1].
    split; [auto|]. split; [auto|]. rewrite E3. reflexivity.
Qed.

Lemma split_unique (A B C D : list Z) x : NoDup (A ++ x :: B) -> A ++ x :: B = C ++ x :: D -> A = C /\ B = D.
Proof.
  revert C. induction A as [|a A IH]; intros C ND E; destruct C as [|c C]; cbn in *.
  - injection E as ->. auto.
  - injection E as E1 E2. subst. inversion_clear ND. exfalso. apply H, in_or_app; right; left; auto.
  - injection E as E1 E2. subst. inversion_clear ND. exfalso. apply H, in_or_app; right; left; auto.
  - injection E as -> E. inversion_clear ND. destruct (IH C H0 E) as [-> ->]. auto.
Qed.

Lemma worker_ok fuel h T x A B : (S (length (inorder T)) < fuel)%nat -> holds h T -> NoDup (inorder T) -> balanced T ->
  inorder T = A ++ x :: B -> good_result h (A ++ B) (avl_remove_worker fuel h x).
Proof.
  intros LF HT ND BT EI. destruct (in_plug T x) as (c & l & b & r & ->); [rewrite EI; apply in_or_app; right; left; auto|].
  assert (AT : at_ctx h c (N l x b r)) by (apply at_ctx_holds; auto).
  pose proof (ctx_len c (N l x b r)) as CL. cbn [inorder] in CL. rewrite app_length in CL. cbn [length] in CL.
  rewrite inorder_plug in EI. cbn [inorder] in EI.
  assert (EI' : (lpart c ++ inorder l) ++ x :: (inorder r ++ rpart c) = A ++ x :: B) by (rewrite <- EI, <- !app_assoc; reflexivity).
  assert (ND' : NoDup ((lpart c ++ inorder l) ++ x :: (inorder r ++ rpart c))).
  { rewrite inorder_plug in ND. cbn [inorder] in ND. rewrite <- !app_assoc in *. exact ND. }
  apply split_unique in EI' as [<- <-]; auto. rewrite <- app_assoc.
  destruct l as [|l1 y yb l2]; [apply (worker1_ok fuel h c L x b r); auto; lia|].
  destruct r as [|r1 z zb r2]; [apply (worker1_ok fuel h c _ x b L); auto; lia|].
  assert (RL : rootp (N l1 y yb l2) = Some y) by reflexivity. assert (RR : rootp (N r1 z zb r2) = Some z) by reflexivity.
  set (l := N l1 y yb l2) in *. set (r := N r1 z zb r2) in *. clearbody l r.
  destruct fuel as [|f]; [lia|]. cbn [avl_remove_worker].
  rewrite (at_lft _ _ _ _ _ _ AT), (at_rgt _ _ _ _ _ _ AT), RL, RR.
  pose proof AT as (RT & _). cbn [rep] in RT. destruct RT as (_ & _ & _ & _ & _ & Rr).
  destruct (local_min_ok h r f (Some x) z Rr RR ltac:(lia)) as (cm & m & mb & mr & rest & E1 & -> & E3).
  set (cc := cm ++ FR l x b :: c).
  assert (EP : plug c (N l x b r) = plug cc (N L m mb mr)) by (unfold cc; rewrite plug_app, <- E1; reflexivity).
  assert (AM : at_ctx h cc (N L m mb mr)) by (apply at_ctx_holds; rewrite <- EP; auto).
  pose proof (ctx_len cc (N L m mb mr)) as CL2. rewrite <- EP in CL2. cbn [inorder app length] in CL2.
  assert (BM : balanced (plug cc (N L m mb mr))) by (rewrite <- EP; auto).
  destruct (worker1_ok f h cc L m mb mr ltac:(lia) AM BM (or_introl eq_refl)) as (h1 & T1 & -> & HT1 & ND1 & B1 & I1 & S1).
  (* the list without m *)
  assert (IE : inorder (plug cc (N L m mb mr)) = (lpart c ++ inorder l ++ [x]) ++ m :: (rest ++ rpart c)).
  { rewrite <- EP, inorder_plug. cbn [inorder]. rewrite E3, <- !app_assoc. reflexivity. }
  assert (IE2 : inorder (plug cc (N L m mb mr)) = lpart cc ++ m :: (inorder mr ++ rpart cc)) by (rewrite inorder_plug; reflexivity).
  assert (NDm : NoDup (lpart cc ++ m :: (inorder mr ++ rpart cc))) by (rewrite <- IE2, <- EP; exact ND).
  destruct (split_unique _ _ (lpart c ++ inorder l ++ [x]) (rest ++ rpart c) m NDm) as [EL ER]; [rewrite <- IE2, IE; reflexivity|].
  cbn [inorder app] in I1. rewrite EL, ER in I1.
  assert (NM : ~ In m (inorder T1)).
  { rewrite I1, <- EL, <- ER. apply NoDup_remove_2 in NDm. exact NDm. }
  destruct (in_plug T1 x) as (c1 & l' & b1 & r' & ->).
  { rewrite I1, <- !app_assoc. apply in_or_app; right. apply in_or_app; right. left; auto. }
  assert (A1 : at_ctx h1 c1 (N l' x b1 r')) by (apply at_ctx_holds; auto).
  assert (Bb : -1 <= b1 <= 1) by (apply balanced_plug in B1 as [B1 _]; apply B1).
  destruct (take_over_ok h1 c1 l' x b1 r' m A1 ltac:(lia)) as (A2 & S2).
  { intros Hm. apply NM. eapply Permutation_in; [symmetry; apply perm_plug|exact Hm]. }
  eapply good_trans; [exact S1|]. 
  apply (finish h1 _ c1 (N l' m b1 r')); auto.
  - apply balanced_plug in B1 as [B1 _]. exact B1.
  - apply balanced_plug in B1 as [_ B1]. exact B1.
  - rewrite inorder_plug in I1, ND1 |- *. cbn [inorder] in I1, ND1 |- *. rewrite E3.
    destruct (split_unique (lpart c1 ++ inorder l') (inorder r' ++ rpart c1) (lpart c ++ inorder l) (rest ++ rpart c) x) as [E4 E5].
    + rewrite <- !app_assoc in *. exact ND1.
    + rewrite <- !app_assoc in *. cbn [app] in *. exact I1.
    + rewrite <- !app_assoc in *. cbn [app]. rewrite E5. rewrite !app_assoc, E4, <- !app_assoc. reflexivity.
Qed.
