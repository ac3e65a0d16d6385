(** Properties of the route modifier: C157 and C158. *)
From Verif Require Import Base DijkstraModel DijkstraProps RouteModel RouteSpec RouteProps RmodModel RmodSpec.
From Coq Require Import Sorting.Sorted.

(** ** Names *)
Lemma eqb_eq a : forall b, eqb a b = true <-> a = b.
Proof.
  induction a as [|x r IH]; intros [|y q]; simpl; split; intro H; try discriminate; try reflexivity.
  - apply andb_prop in H as [H1 H2]. apply IH in H2. f_equal; [lia|exact H2].
  - injection H as -> ->. rewrite Z.eqb_refl. apply IH. reflexivity.
Qed.
Lemma name_eqb_same a b : name_eqb a b = true <-> same a b.
Proof. apply eqb_eq. Qed.
Lemma ltb_irrefl a : ltb a a = false.
Proof. induction a as [|x r IH]; [reflexivity|]. simpl. rewrite IH, Z.ltb_irrefl, andb_false_r. reflexivity. Qed.
Lemma ltb_trans a : forall b c, ltb a b = true -> ltb b c = true -> ltb a c = true.
Proof.
  induction a as [|x r IH]; intros [|y q] [|z w]; simpl; intros H1 H2; try discriminate; try reflexivity.
  apply orb_prop in H1 as [H1|H1], H2 as [H2|H2]; try (apply andb_prop in H1 as [H1 H3]); try (apply andb_prop in H2 as [H2 H4]).
  - replace (x <? z) with true by lia. reflexivity.
  - replace (x <? z) with true by lia. reflexivity.
  - replace (x <? z) with true by lia. reflexivity.
  - rewrite (IH _ _ H3 H4). replace (x =? z) with true by lia. apply orb_true_r.
Qed.
Lemma ltb_total a : forall b, ltb a b = true \/ a = b \/ ltb b a = true.
Proof.
  induction a as [|x r IH]; intros [|y q]; simpl; auto. destruct (Z.lt_trichotomy x y) as [H|[H|H]].
  - left. replace (x <? y) with true by lia. reflexivity.
  - subst y. rewrite Z.ltb_irrefl, Z.eqb_refl. simpl. destruct (IH q) as [E|[E|E]]; auto. subst q. auto.
  - right. right. replace (y <? x) with true by lia. reflexivity.
Qed.
Lemma ltb_before a b : ltb a b = true <-> (exists x r, b = a ++ x :: r) \/ (exists c x y r q, x < y /\ a = c ++ x :: r /\ b = c ++ y :: q).
Proof.
  split.
  - revert b. induction a as [|x r IH]; intros [|y q]; simpl; intro H; try discriminate.
    + left. exists y, q. reflexivity.
    + apply orb_prop in H as [H|H]; [right; exists [], x, y, r, q; repeat split; lia|]. apply andb_prop in H as [H1 H2].
      assert (x = y) by lia. subst y. destruct (IH _ H2) as [[z [w E]]|[c [z [w [u [v [L [E1 E2]]]]]]]].
      * left. exists z, w. congruence.
      * right. exists (x :: c), z, w, u, v. split; [exact L|]. split; simpl; congruence.
  - intros [[x [r ->]]|[c [x [y [r [q [L [-> ->]]]]]]]].
    + induction a as [|y a IH]; [reflexivity|]. simpl. rewrite IH, Z.eqb_refl. apply orb_true_r.
    + induction c as [|z c IH]; simpl; [replace (x <? y) with true by lia; reflexivity|]. rewrite IH, Z.eqb_refl. apply orb_true_r.
Qed.
Lemma name_ltb_before a b : name_ltb a b = true <-> before a b.
Proof. apply ltb_before. Qed.

(** ** The tree *)
Definition lt (a b : modifier) : Prop := name_ltb (m_name a) (m_name b) = true.
Definition sorted (t : tree) : Prop := StronglySorted lt t.
Lemma lt_trans a b c : lt a b -> lt b c -> lt a c.
Proof. unfold lt, name_ltb. apply ltb_trans. Qed.
Lemma put_in m t x : In x (put m t) <-> x = m \/ In x t.
Proof.
  induction t as [|y r IH]; simpl; [intuition|]. destruct (name_ltb (m_name m) (m_name y)); simpl; [intuition|]. rewrite IH. intuition.
Qed.
Lemma put_sorted m t : sorted t -> get t (m_name m) = None -> sorted (put m t).
Proof.
  intros S0. induction S0 as [|y r S1 IH F]; intro G; simpl; [repeat constructor|].
  unfold get in G. simpl in G. destruct (name_eqb (m_name y) (m_name m)) eqn:E; [discriminate G|].
  destruct (name_ltb (m_name m) (m_name y)) eqn:L.
  - constructor; [constructor; assumption|]. constructor; [exact L|]. eapply Forall_impl; [|exact F]. intros z H. apply (lt_trans _ y); assumption.
  - constructor; [apply IH; exact G|]. apply Forall_forall. intros z H. apply put_in in H as [->|H]; [|rewrite Forall_forall in F; auto].
    unfold lt, name_ltb, name_eqb in *. destruct (ltb_total (map tolower (m_name m)) (map tolower (m_name y))) as [X|[X|X]]; [congruence| |exact X].
    rewrite X in E. assert (R : eqb (map tolower (m_name y)) (map tolower (m_name y)) = true) by (apply eqb_eq; reflexivity). congruence.
Qed.
Lemma map_sorted f t : (forall x, m_name (f x) = m_name x) -> sorted t -> sorted (map f t).
Proof.
  intros N S0. induction S0 as [|y r S1 IH F]; simpl; constructor; auto. apply Forall_forall. intros z H. apply in_map_iff in H as [w [<- H]].
  unfold lt. rewrite !N. rewrite Forall_forall in F. apply (F w H).
Qed.
Lemma filter_sorted f t : sorted t -> sorted (filter f t).
Proof.
  intros S0. induction S0 as [|y r S1 IH F]; simpl; [constructor|]. destruct (f y); [|exact IH]. constructor; [exact IH|].
  apply Forall_forall. intros z H. apply filter_In in H as [H _]. rewrite Forall_forall in F. auto.
Qed.
(** ** The invariant: the tree holds the sections that are in force *)
Definition holds (t : tree) (l : bytes -> mconf -> Prop) : Prop :=
  sorted t /\ (forall m, In m t -> l (m_name m) (m_conf m)) /\ (forall n c, l n c -> exists m, In m t /\ same (m_name m) n /\ m_conf m = c).
Lemma live_same os a b c : same a b -> live os a c -> live os b c.
Proof.
  intro E. induction os as [|[x p] r IH]; simpl; [auto|]. unfold same in *. intros [[H1 H2]|[H1 H2]]; [left|right]; split; auto; congruence.
Qed.
Lemma cut_short n : (length n <= 15)%nat -> cut n = n.
Proof. intro H. unfold cut. apply firstn_all2. exact H. Qed.
Lemma get_some t n m : get t n = Some m -> In m t /\ same (m_name m) n.
Proof. unfold get. intro H. apply find_some in H as [H1 H2]. split; [exact H1|]. apply name_eqb_same. exact H2. Qed.
Lemma get_none t n m : get t n = None -> In m t -> ~ same (m_name m) n.
Proof. unfold get. intros H I E. apply (find_none _ _ H) in I. apply name_eqb_same in E. congruence. Qed.
Lemma step_ok t os o : short o -> holds t (live os) -> exists t', cfg_changed t (fst o) (snd o) = Ok t' /\ holds t' (live (o :: os)).
Proof.
  destruct o as [n p]. cbn [fst snd]. intros Sh [S0 [A B]].
  assert (G : exists t1 m, get_modifier t n = (t1, m, true) /\ sorted t1 /\ same (m_name m) n /\ In m t1 /\
    (forall x, In x t1 -> ~ same (m_name x) n -> In x t) /\ (forall x, In x t -> In x t1)).
  { unfold get_modifier. rewrite (cut_short n Sh). destruct (get t n) as [m|] eqn:F.
    - exists t, m. apply get_some in F as [F1 F2]. repeat split; auto.
    - eexists _, _. split; [reflexivity|]. split; [apply put_sorted; assumption|]. split; [reflexivity|]. split; [apply put_in; auto|].
      split; [|intros x H; apply put_in; auto]. intros x H N. apply put_in in H as [->|H]; [destruct (N eq_refl)|exact H]. }
  destruct G as [t1 [m [G [S1 [E [Im [I1 I2]]]]]]]. unfold cfg_changed. rewrite G.
  assert (Q : forall x, name_eqb (m_name x) (m_name m) = true <-> same (m_name x) n) by (intro x; rewrite name_eqb_same; unfold same in *; rewrite E; reflexivity).
  destruct p as [c|].
  - eexists. split; [reflexivity|]. split; [apply map_sorted; [|exact S1]; intro x; destruct (name_eqb _ _); reflexivity|]. split.
    + intros x H. apply in_map_iff in H as [z [<- H]]. destruct (name_eqb (m_name z) (m_name m)) eqn:D; simpl.
      * left. split; [symmetry; apply Q; exact D|reflexivity].
      * assert (N : ~ same (m_name z) n) by (intro X; apply Q in X; congruence). right. split; [intro X; apply N; symmetry; exact X|]. apply A, I1; assumption.
    + intros k c' [[H1 [= <-]]|[H1 H2]].
      * exists {| m_name := m_name m; m_conf := c |}. split; [|split; [unfold same in *; simpl; congruence|reflexivity]].
        apply in_map_iff. exists m. split; [|exact Im]. replace (name_eqb (m_name m) (m_name m)) with true; [reflexivity|]. symmetry. apply name_eqb_same. reflexivity.
      * destruct (B k c' H2) as [z [Iz [Ez Cz]]]. exists z. split; [|auto]. apply in_map_iff. exists z. split; [|apply I2; exact Iz].
        destruct (name_eqb (m_name z) (m_name m)) eqn:D; [|reflexivity]. apply Q in D. exfalso. apply H1. unfold same in *. congruence.
  - eexists. split; [reflexivity|]. split; [apply filter_sorted; exact S1|]. split.
    + intros x H. apply filter_In in H as [H D]. apply negb_true_iff in D.
      assert (N : ~ same (m_name x) n) by (intro X; apply Q in X; congruence). right. split; [intro X; apply N; symmetry; exact X|]. apply A, I1; assumption.
    + intros k c' [[_ H2]|[H1 H2]]; [discriminate H2|]. destruct (B k c' H2) as [z [Iz [Ez Cz]]]. exists z. split; [|auto].
      apply filter_In. split; [apply I2; exact Iz|]. apply negb_true_iff. destruct (name_eqb (m_name z) (m_name m)) eqn:D; [|reflexivity].
      apply Q in D. exfalso. apply H1. unfold same in *. congruence.
Qed.
Lemma configure_ok os : forall t done, Forall short os -> holds t (live done) -> exists t', configure t os = Ok t' /\ holds t' (live (rev os ++ done)).
Proof.
  induction os as [|[n p] r IH]; intros t done Sh H; [exists t; auto|]. inversion Sh as [|? ? S1 S2]; subst.
  destruct (step_ok t done (n, p) S1 H) as [t1 [E H1]]. simpl. cbn [fst snd] in E. rewrite E. destruct (IH t1 ((n, p) :: done) S2 H1) as [t2 [E2 H2]].
  exists t2. split; [exact E2|]. rewrite <- app_assoc. exact H2.
Qed.
Lemma matches_meant plen d k c : matches plen d k c = true <-> meant_for plen d k c.
Proof.
  unfold matches, meant_for. rewrite !andb_true_iff, orb_true_iff, !Z.eqb_eq. tauto.
Qed.
Lemma modify_asked c p : asked c p (modify c p).
Proof. unfold asked, modify. simpl. repeat split; destruct (Z.eq_dec _ 0) as [E|E]; try rewrite E; try reflexivity; destruct (_ =? 0) eqn:D; try reflexivity; lia. Qed.
Lemma first_match f t : sorted t -> match find f t with Some m => f m = true /\ In m t /\ (forall x, In x t -> f x = true -> x = m \/ lt m x) | None => True end.
Proof.
  intro S0. induction S0 as [|y r S1 IH F]; simpl; [exact Logic.I|]. destruct (f y) eqn:E.
  - split; [exact E|]. split; [left; reflexivity|]. intros x [->|H] _; [left; reflexivity|]. right. rewrite Forall_forall in F. auto.
  - destruct (find f r) as [m|]; [|exact Logic.I]. destruct IH as [A [B C]]. split; [exact A|]. split; [right; exact B|].
    intros x [->|H] X; [congruence|auto].
Qed.
(** sections whose names have at most 15 characters: a route that is meant by sections of the domain gets what the alphabetically first
    of them asks for, all other routes stay as they are and none is dropped; missing: longer names *)
Theorem C157_first_section_partial plen os d k p set : Forall short os -> exists t, configure [] os = Ok t /\
  (forall n c, in_force os n c -> meant_for plen d k c ->
     (forall n' c', in_force os n' c' -> before n' n -> ~ meant_for plen d k c') -> asked c p (snd (rt_filter plen t d k p set))) /\
  ((forall n c, in_force os n c -> ~ meant_for plen d k c) -> snd (rt_filter plen t d k p set) = p) /\
  fst (rt_filter plen t d k p set) = true.
Proof.
  intro Sh. destruct (configure_ok os [] [] Sh) as [t [E [S0 [A B]]]].
  { split; [constructor|]. split; [intros m []|intros n c []]. }
  rewrite app_nil_r in A, B. exists t. split; [exact E|]. unfold rt_filter. cbn [fst snd].
  pose proof (first_match (fun m => matches plen d k (m_conf m)) t S0) as F. split; [|split; [|reflexivity]].
  - intros n c L M N. destruct (B n c L) as [x [Ix [Ex Cx]]].
    assert (X : matches plen d k (m_conf x) = true) by (apply matches_meant; rewrite Cx; exact M).
    destruct (find _ t) as [m|] eqn:D; [|apply (find_none _ _ D) in Ix; congruence]. destruct F as [F1 [F2 F3]].
    destruct (F3 x Ix X) as [->|H]; [rewrite Cx; apply modify_asked|]. exfalso. apply (N (m_name m) (m_conf m)).
    + apply A. exact F2.
    + apply name_ltb_before. unfold lt, name_ltb in *. unfold same in Ex. rewrite <- Ex. exact H.
    + apply matches_meant. exact F1.
  - intro N. destruct (find _ t) as [m|]; [|reflexivity]. destruct F as [F1 [F2 _]]. exfalso. apply (N (m_name m) (m_conf m)); [apply A; exact F2|].
    apply matches_meant. exact F1.
Qed.

(** ** Examples and what does not hold *)
Definition all_keys : Z -> bool := fun _ => true.
Definition sec (plen tab dist : Z) : mconf :=
  {| m_domain := 0; m_accepts := all_keys; m_plen := plen; m_table := tab; m_proto := 0; m_dist := dist |}.
Definition nm_a : bytes := [97].
Definition nm_A : bytes := [65].
Definition nm_B : bytes := [66].
Definition nm_c : bytes := [99].
(** prefix lengths: the routes to even keys are host routes *)
Definition ex_plen (k : Z) : Z := if Z.even k then 32 else 24.
(** sections c, B and a are added, A changes a, c is removed *)
Definition ex_os : list (bytes * option mconf) :=
  [(nm_c, Some (sec (-1) 9 0)); (nm_B, Some (sec (-1) 0 7)); (nm_a, Some (sec 24 5 0)); (nm_A, Some (sec 32 6 0)); (nm_c, None)].
Example C157_ex : Forall short ex_os /\
  in_force ex_os nm_a (sec 32 6 0) /\ in_force ex_os nm_B (sec (-1) 0 7) /\ before nm_a nm_B /\
  exists t, configure [] ex_os = Ok t /\
    snd (rt_filter ex_plen t 0 2 (RParam 7 0 2 254 100 0) true) = RParam 7 0 2 6 100 0 /\
    snd (rt_filter ex_plen t 0 3 (RParam 7 0 2 254 100 0) true) = RParam 7 0 7 254 100 0 /\
    snd (rt_filter ex_plen t 1 3 (RParam 7 0 2 254 100 0) true) = RParam 7 0 2 254 100 0.
Proof.
  split; [repeat constructor|]. split.
  { unfold in_force, ex_os. cbn [rev app live]. right. split; [intro H; discriminate H|]. left. split; reflexivity. }
  split.
  { unfold in_force, ex_os. cbn [rev app live]. right. split; [intro H; discriminate H|]. right. split; [intro H; discriminate H|].
    right. split; [intro H; discriminate H|]. left. split; reflexivity. }
  split.
  { right. exists [], 97, 98, [], []. repeat split; lia. }
  eexists. split; [vm_compute; reflexivity|]. repeat split.
Qed.

Definition long_name : bytes := repeat 120 16.
Definition long_name' : bytes := repeat 120 15 ++ [121].
(** a section with a name of 16 characters is changed: the routes keep getting what the old one asked for *)
Theorem C157_long_name_changed_refuted : exists os n c plen d k p t,
  os = [(n, Some (sec (-1) 5 0)); (n, Some c)] /\ length n = 16%nat /\ configure [] os = Ok t /\
  in_force os n c /\ (forall n' c', in_force os n' c' -> same n' n /\ c' = c) /\ meant_for plen d k c /\
  p_table (snd (rt_filter plen t d k p true)) = 5 /\ ~ asked c p (snd (rt_filter plen t d k p true)).
Proof.
  exists [(long_name, Some (sec (-1) 5 0)); (long_name, Some (sec (-1) 6 0))], long_name, (sec (-1) 6 0), ex_plen, 0, 2, (RParam 7 0 2 254 100 0).
  eexists. split; [reflexivity|]. split; [reflexivity|]. split; [vm_compute; reflexivity|].
  split; [left; split; reflexivity|]. split.
  { intros n' c' H. unfold in_force in H. cbn [rev app live] in H. destruct H as [[H E]|[H [[G E]|[G []]]]].
    - injection E as <-. split; [symmetry; exact H|reflexivity].
    - contradiction. }
  split; [repeat split; left; reflexivity|]. split; [reflexivity|]. intros [_ [_ [_ [H _]]]]. vm_compute in H. discriminate H.
Qed.
(** its removal removes a node that is in no tree *)
Theorem C157_long_name_removed_refuted : exists n c, length n = 16%nat /\ configure [] [(n, Some c); (n, None)] = Bad.
Proof. exists long_name, (sec (-1) 5 0). split; reflexivity. Qed.
(** of two sections whose names have the same first 15 characters the second one has no effect *)
Theorem C157_long_names_refuted : exists n n' c c' plen d k p t,
  ~ same n n' /\ configure [] [(n, Some c); (n', Some c')] = Ok t /\ in_force [(n, Some c); (n', Some c')] n' c' /\
  meant_for plen d k c' /\ ~ meant_for plen d k c /\ snd (rt_filter plen t d k p true) = p /\ ~ asked c' p p.
Proof.
  exists long_name, long_name', (sec 24 5 0), (sec 32 6 0), ex_plen, 0, 2, (RParam 7 0 2 254 100 0). eexists.
  split; [intro H; vm_compute in H; discriminate H|]. split; [vm_compute; reflexivity|]. split; [left; split; reflexivity|].
  split; [repeat split; right; reflexivity|]. split.
  { intros [_ [[H|H] _]]; vm_compute in H; discriminate H. }
  split; [reflexivity|]. intros [_ [_ [_ [H _]]]]. vm_compute in H. discriminate H.
Qed.

(** ** C158: modifiers and the routes in the kernel *)
Lemma rt_filter_fixed plen t d : fixed_filters [rt_filter plen t d].
Proof.
  intros k p q set set' H1 H2 H3. unfold apply_filters, rt_filter. cbn [fold_left snd].
  destruct (find _ t) as [m|]; cbn; repeat split; auto; rewrite ?H1, ?H2, ?H3; reflexivity.
Qed.
(** while the sections stay the same the kernel has exactly the routes of the table, also the modified ones;
    missing: changes of the sections *)
Theorem C158_kernel_in_sync_partial plen os d v4 dom t s : configure [] os = Ok t ->
  calm_reach v4 dom [rt_filter plen t d] s -> settled s -> in_sync s.
Proof. intros _. apply C52_kernel_in_sync_partial. apply rt_filter_fixed. Qed.

(** another list of filters for a running router *)
Definition with_filters (s : rstate) (f : list rfilter) : rstate :=
  RState (s_tab s) (s_dn s) (s_kern s) (s_pend s) (s_sent s) (s_dom s) f (s_changed s) (s_shut s) (s_freeze s).
Definition mods (tab : Z) : tree := [{| m_name := nm_a; m_conf := sec 32 tab 0 |}].
(** a section that sends the host routes to table 5 is changed to table 6: after the next calculation the route is in both tables, and
    it is in no entry of the router with table 5 *)
Theorem C158_changed_section_refuted : exists os n c c' dom s s' p p', let f os := match configure [] os with Ok t => [rt_filter ex_plen t 0] | Bad => [] end in
  os = [(n, Some c)] /\ Forall short os /\ rrun (rinit dom (f os)) [RChanged; upd [nb2]; RAnswer 3; RAnswer 2] = Some s /\ settled s /\
  s_kern s = [(3, p'); (2, p)] /\
  rrun (with_filters s (f (os ++ [(n, Some c')]))) [RChanged; upd [nb2]; RAnswer 2] = Some s' /\ settled s' /\
  In (2, p) (s_kern s') /\ (forall e, In e (s_tab s') -> p_table (re_p e) <> p_table p) /\ ~ in_sync s'.
Proof.
  exists [(nm_a, Some (sec 32 5 0))], nm_a, (sec 32 5 0), (sec 32 6 0), dom1.
  do 2 eexists. exists (RParam 7 0 2 5 100 0), (RParam 7 2 2 254 100 0). intro f.
  split; [reflexivity|]. split; [repeat constructor|]. split; [vm_compute; reflexivity|]. split; [reflexivity|]. split; [reflexivity|].
  split; [vm_compute; reflexivity|]. split; [reflexivity|].
  match goal with |- ?A /\ ?B /\ _ => assert (K : A); [|assert (T : B)] end.
  - right. right. left. reflexivity.
  - intros e [<-|[<-|[]]]; discriminate.
  - split; [exact K|]. split; [exact T|]. intro Y. apply Y in K as [e [I0 [_ [_ P]]]]. apply (T e I0). rewrite P. reflexivity.
Qed.
(** it is still there after the shutdown of the router *)
Theorem C158_left_at_shutdown_refuted : exists os n c c' dom s s' p, let f os := match configure [] os with Ok t => [rt_filter ex_plen t 0] | Bad => [] end in
  os = [(n, Some c)] /\ Forall short os /\ rrun (rinit dom (f os)) [RChanged; upd [nb2]; RAnswer 3; RAnswer 2] = Some s /\ settled s /\
  rrun (with_filters s (f (os ++ [(n, Some c')]))) [RChanged; upd [nb2]; RAnswer 2; RShutdown accepting; RAnswer 2; RAnswer 3] = Some s' /\
  settled s' /\ s_tab s' = [] /\ s_kern s' = [(2, p)].
Proof.
  exists [(nm_a, Some (sec 32 5 0))], nm_a, (sec 32 5 0), (sec 32 6 0), dom1.
  do 2 eexists. exists (RParam 7 0 2 5 100 0). intro f.
  split; [reflexivity|]. split; [repeat constructor|]. split; [vm_compute; reflexivity|]. split; [reflexivity|].
  split; [vm_compute; reflexivity|]. repeat split.
Qed.
Example C158_ex : exists s, calm_reach v4_ex dom1 [rt_filter ex_plen (mods 5) 0] s /\ settled s /\
  configure [] [(nm_a, Some (sec 32 5 0))] = Ok (mods 5) /\
  s_kern s = [(3, RParam 7 2 2 254 100 0); (2, RParam 7 0 2 5 100 0)].
Proof.
  destruct (rrun (rinit dom1 [rt_filter ex_plen (mods 5) 0]) [RChanged; upd [nb2]; RAnswer 3; RAnswer 2]) as [s|] eqn:E;
    [|vm_compute in E; discriminate].
  exists s. split.
  { cbn [rrun] in E.
    repeat match type of E with
    | obind (rstep ?a ?b) _ = _ => let x := fresh "s" in let H := fresh "E" in
        destruct (rstep a b) as [x|] eqn:H; [cbn [obind] in E|discriminate] end.
    injection E as <-.
    eapply cr_step; [|apply calm_answer|exact E3].
    eapply cr_step; [|apply calm_answer|exact E2].
    eapply cr_step; [|apply calm_update; [|apply tp2_ok|apply v4_ok]|exact E1].
    - eapply cr_step; [apply cr_init|apply calm_changed|exact E0].
    - injection E0 as <-. reflexivity. }
  vm_compute in E. injection E as <-. repeat split.
Qed.

Print Assumptions C157_first_section_partial.
Print Assumptions C157_long_name_changed_refuted.
Print Assumptions C157_long_name_removed_refuted.
Print Assumptions C157_long_names_refuted.
Print Assumptions C158_kernel_in_sync_partial.
Print Assumptions C158_changed_section_refuted.
Print Assumptions C158_left_at_shutdown_refuted.
