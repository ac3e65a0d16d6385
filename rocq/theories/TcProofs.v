(** Proofs about the topology database: consistency (C79, C80). *)
From Verif Require Import Base CodecModel TcModel TcSpec.
From Verif Require DomModel DomProofs.
From Coq Require Import Permutation.

(** * Heaps and trees *)
Lemma hset_same {A} (h : heap A) k v : hset h k v k = v.
Proof. unfold hset. now rewrite Z.eqb_refl. Qed.
Lemma hset_other {A} (h : heap A) k v j : j <> k -> hset h k v j = h j.
Proof. intros H. unfold hset. destruct (Z.eqb_spec j k); [contradiction|auto]. Qed.

Lemma tree_find_ok key k : forall l, (forall x, In x l -> exists kx, key x = Some kx) ->
  exists f, tree_find key l k = Some f /\
  match f with Some x => In x l /\ key x = Some k | None => forall x, In x l -> key x <> Some k end.
Proof.
  induction l as [|x l IH]; intros H; cbn [tree_find].
  - exists None. split; [reflexivity|]. intros x [].
  - destruct (H x (or_introl eq_refl)) as (kx & Hx). rewrite Hx. destruct (Z.eqb_spec kx k) as [->|N].
    + exists (Some x). cbn; auto.
    + destruct IH as (f & F & P); [intros y I; apply H; right; auto|]. exists f. split; auto. destruct f as [y|].
      * destruct P; cbn; auto.
      * intros y [<-|I]; [congruence|auto].
Qed.
Lemma tree_ins_ok key id k : forall l, (forall x, In x l -> exists kx, key x = Some kx /\ kx <> k) ->
  exists l', tree_ins key id k l = Some (Some l') /\ Permutation l' (id :: l).
Proof.
  induction l as [|x l IH]; intros H; cbn [tree_ins].
  - eexists. split; [reflexivity|]. apply Permutation_refl.
  - destruct (H x (or_introl eq_refl)) as (kx & Hx & N). rewrite Hx. destruct (Z.eqb_spec kx k); [contradiction|].
    destruct (k <? kx); [eexists; split; [reflexivity|apply Permutation_refl]|].
    destruct IH as (l' & E & P); [intros y I; apply H; right; auto|]. rewrite E. eexists. split; [reflexivity|].
    rewrite P. apply perm_swap.
Qed.
Lemma tree_del_ok id l : In id l -> NoDup l -> exists l', tree_del id l = Some l' /\ NoDup l' /\ forall x, In x l' <-> In x l /\ x <> id.
Proof.
  intros I N. unfold tree_del.
  assert (existsb (Z.eqb id) l = true) as -> by (apply existsb_exists; exists id; split; auto; apply Z.eqb_refl).
  eexists. split; [reflexivity|]. split; [apply NoDup_filter; auto|].
  intros x. rewrite filter_In. destruct (Z.eqb_spec x id); cbn; intuition; congruence.
Qed.
Lemma perm_In {A} (l l' : list A) a x : Permutation l' (a :: l) -> (In x l' <-> x = a \/ In x l).
Proof. intros P. split; intros H; [apply (Permutation_in _ P) in H; cbn in H; intuition|apply (Permutation_in _ (Permutation_sym P)); cbn; intuition]. Qed.
Lemma perm_NoDup {A} (l l' : list A) a : Permutation l' (a :: l) -> ~ In a l -> NoDup l -> NoDup l'.
Proof. intros P N D. apply (Permutation_NoDup (Permutation_sym P)). constructor; auto. Qed.

(** * The invariant *)
Definition fresh (d : db) : Prop := forall i, d_next d <= i ->
  d_nodes d i = None /\ d_edges d i = None /\ d_atts d i = None /\ d_eps d i = None.
Definition lens (d : db) : Prop :=
  (forall a x, d_atts d a = Some x -> zlen (a_cost x) = MAXDOM /\ zlen (a_dist x) = MAXDOM) /\
  (forall e x, d_edges d e = Some x -> zlen (e_cost x) = MAXDOM).
Record wf (d : db) : Prop := { wf_c : consistent d; wf_f : fresh d; wf_l : lens d }.

(** ** Changes that leave the structure alone *)
Definition nsh (x : tnode) := (n_addr x, n_edges x, n_atts x).
Definition esh (x : tedge) := (e_src x, e_dst x, e_inv x, e_virt x).
Definition ash (x : tatt) := (a_src x, a_dst x).
Definition psh (x : tep) := (p_key x, p_atts x).
Definition osh {A B} (f : A -> B) (o : option A) : option B := option_map f o.
Record same_shape (d d' : db) : Prop := {
  ss_n : forall n, osh nsh (d_nodes d' n) = osh nsh (d_nodes d n);
  ss_t : d_tree d' = d_tree d;
  ss_e : forall e, osh esh (d_edges d' e) = osh esh (d_edges d e);
  ss_a : forall a, osh ash (d_atts d' a) = osh ash (d_atts d a);
  ss_p : forall p, osh psh (d_eps d' p) = osh psh (d_eps d p);
  ss_pt : d_eptree d' = d_eptree d }.

Lemma osh_some {A B} (f : A -> B) o o' x : osh f o' = osh f o -> o' = Some x -> exists y, o = Some y /\ f x = f y.
Proof. intros H ->. destruct o as [y|]; cbn in H; [|discriminate]. injection H as H. eauto. Qed.
Lemma osh_none {A B} (f : A -> B) o o' : osh f o' = osh f o -> (o' <> None <-> o <> None).
Proof. destruct o, o'; cbn; intros H; try discriminate; split; congruence. Qed.

Lemma same_sym d d' : same_shape d d' -> same_shape d' d.
Proof. intros []. constructor; auto. Qed.
Lemma same_refl d : same_shape d d.
Proof. constructor; auto. Qed.
Lemma same_trans a b c : same_shape a b -> same_shape b c -> same_shape a c.
Proof. intros [] []. constructor; intros; congruence. Qed.

Lemma same_has_edge d d' n e : same_shape d d' -> has_edge d' n e -> has_edge d n e.
Proof.
  intros S (x & Hx & I). destruct (osh_some _ _ _ _ (ss_n _ _ S n) Hx) as (y & Hy & E). exists y. split; auto.
  injection E as _ E _. congruence.
Qed.
Lemma same_has_att d d' n a : same_shape d d' -> has_att d' n a -> has_att d n a.
Proof.
  intros S (x & Hx & I). destruct (osh_some _ _ _ _ (ss_n _ _ S n) Hx) as (y & Hy & E). exists y. split; auto.
  injection E as _ _ E. congruence.
Qed.
Lemma same_ep_att d d' n a : same_shape d d' -> ep_att d' n a -> ep_att d n a.
Proof.
  intros S (x & Hx & I). destruct (osh_some _ _ _ _ (ss_p _ _ S n) Hx) as (y & Hy & E). exists y. split; auto.
  injection E as _ E. congruence.
Qed.

Lemma consistent_ext d d' : same_shape d d' -> consistent d -> consistent d'.
Proof.
  intros S C. pose proof (same_sym _ _ S) as S'. constructor.
  - rewrite (ss_t _ _ S). split; [apply (c_tree _ C)|]. intros n. rewrite (osh_none _ _ _ (ss_n _ _ S n)). apply (c_tree _ C).
  - intros n m x y Hx Hy E. destruct (osh_some _ _ _ _ (ss_n _ _ S n) Hx) as (x0 & Hx0 & Ex).
    destruct (osh_some _ _ _ _ (ss_n _ _ S m) Hy) as (y0 & Hy0 & Ey). injection Ex as Ex _ _. injection Ey as Ey _ _.
    eapply (c_addr _ C); eauto. congruence.
  - intros n x Hx. destruct (osh_some _ _ _ _ (ss_n _ _ S n) Hx) as (x0 & Hx0 & Ex). injection Ex as _ Ex1 Ex2.
    rewrite Ex1, Ex2. eapply (c_nodup _ C); eauto.
  - intros e x Hx. destruct (osh_some _ _ _ _ (ss_e _ _ S e) Hx) as (x0 & Hx0 & Ex). injection Ex as E1 E2 E3 E4.
    apply (same_has_edge _ _ _ _ S'). rewrite E1. eapply (c_src _ C); eauto.
  - intros n e H. apply (same_has_edge _ _ _ _ S) in H. destruct (c_hooked _ C _ _ H) as (x & Hx & E).
    destruct (osh_some _ _ _ _ (ss_e _ _ S' e) Hx) as (x0 & Hx0 & Ex). injection Ex as E1 E2 E3 E4. exists x0. split; auto. congruence.
  - intros e x Hx. destruct (osh_some _ _ _ _ (ss_e _ _ S e) Hx) as (x0 & Hx0 & Ex). injection Ex as E1 E2 E3 E4.
    destruct (c_inv _ C _ _ Hx0) as (y & Hy & I1 & I2 & I3 & I4).
    destruct (osh_some _ _ _ _ (ss_e _ _ S' _) Hy) as (y0 & Hy0 & Ey). injection Ey as F1 F2 F3 F4.
    exists y0. rewrite E3. repeat split; try congruence. intros V. rewrite <- F4. apply I4. congruence.
  - intros e x Hx. destruct (osh_some _ _ _ _ (ss_e _ _ S e) Hx) as (x0 & Hx0 & Ex). injection Ex as E1 E2 E3 E4.
    rewrite E1, E2. eapply (c_self _ C); eauto.
  - intros e f x y Hx Hy Q1 Q2. destruct (osh_some _ _ _ _ (ss_e _ _ S e) Hx) as (x0 & Hx0 & Ex). injection Ex as E1 E2 E3 E4.
    destruct (osh_some _ _ _ _ (ss_e _ _ S f) Hy) as (y0 & Hy0 & Ey). injection Ey as F1 F2 F3 F4.
    eapply (c_one _ C); eauto; congruence.
  - intros a x Hx. destruct (osh_some _ _ _ _ (ss_a _ _ S a) Hx) as (x0 & Hx0 & Ex). injection Ex as E1 E2.
    destruct (c_att _ C _ _ Hx0) as (P & Q). rewrite E1, E2. split; [apply (same_has_att _ _ _ _ S')|apply (same_ep_att _ _ _ _ S')]; auto.
  - intros n a H. apply (same_has_att _ _ _ _ S) in H. destruct (c_att_n _ C _ _ H) as (x & Hx & E).
    destruct (osh_some _ _ _ _ (ss_a _ _ S' a) Hx) as (x0 & Hx0 & Ex). injection Ex as E1 E2. exists x0. split; auto. congruence.
  - intros n a H. apply (same_ep_att _ _ _ _ S) in H. destruct (c_att_p _ C _ _ H) as (x & Hx & E).
    destruct (osh_some _ _ _ _ (ss_a _ _ S' a) Hx) as (x0 & Hx0 & Ex). injection Ex as E1 E2. exists x0. split; auto. congruence.
  - intros a b x y Hx Hy Q1 Q2. destruct (osh_some _ _ _ _ (ss_a _ _ S a) Hx) as (x0 & Hx0 & Ex). injection Ex as E1 E2.
    destruct (osh_some _ _ _ _ (ss_a _ _ S b) Hy) as (y0 & Hy0 & Ey). injection Ey as F1 F2.
    eapply (c_att_one _ C); eauto; congruence.
  - rewrite (ss_pt _ _ S). split; [apply (c_eptree _ C)|]. intros n. rewrite (osh_none _ _ _ (ss_p _ _ S n)). apply (c_eptree _ C).
  - intros p q x y Hx Hy E. destruct (osh_some _ _ _ _ (ss_p _ _ S p) Hx) as (x0 & Hx0 & Ex).
    destruct (osh_some _ _ _ _ (ss_p _ _ S q) Hy) as (y0 & Hy0 & Ey). injection Ex as Ex _. injection Ey as Ey _.
    eapply (c_key _ C); eauto. congruence.
  - intros p x Hx. destruct (osh_some _ _ _ _ (ss_p _ _ S p) Hx) as (x0 & Hx0 & Ex). injection Ex as _ Ex. rewrite Ex. eapply (c_ep _ C); eauto.
Qed.

Lemma wf_ext d d' : same_shape d d' -> d_next d <= d_next d' -> lens d' -> wf d -> wf d'.
Proof.
  intros S N L [C F _]. constructor; auto; [eapply consistent_ext; eauto|].
  intros i Hi. destruct (F i ltac:(lia)) as (F1 & F2 & F3 & F4).
  assert (forall A B (f : A -> B) (o o' : option A), osh f o' = osh f o -> o = None -> o' = None) as Q.
  { intros A B f o o' H ->. destruct o'; [discriminate|auto]. }
  exact (conj (Q _ _ _ _ _ (ss_n _ _ S i) F1) (conj (Q _ _ _ _ _ (ss_e _ _ S i) F2) (conj (Q _ _ _ _ _ (ss_a _ _ S i) F3) (Q _ _ _ _ _ (ss_p _ _ S i) F4)))).
Qed.
(** writing fields of a node or an edge that are not part of the structure *)
Lemma put_node_ok d n x f : wf d -> d_nodes d n = Some x -> nsh (f x) = nsh x ->
  exists d', put_node d n f = Some d' /\ wf d' /\ d' = set_nodes d (hset (d_nodes d) n (Some (f x))).
Proof.
  intros W Hx E. unfold put_node. rewrite Hx. eexists. split; [reflexivity|]. split; auto.
  apply (wf_ext d); auto; [|cbn; lia|apply (wf_l _ W)].
  constructor; cbn; auto. intros k. unfold hset. destruct (Z.eqb_spec k n) as [->|]; auto. rewrite Hx. cbn. now rewrite E.
Qed.
Lemma put_edge_ok d e x f : wf d -> d_edges d e = Some x -> esh (f x) = esh x -> zlen (e_cost (f x)) = MAXDOM ->
  exists d', put_edge d e f = Some d' /\ wf d' /\ d' = set_edges d (hset (d_edges d) e (Some (f x))).
Proof.
  intros W Hx E L. unfold put_edge. rewrite Hx. eexists. split; [reflexivity|]. split; auto.
  apply (wf_ext d); auto; [|cbn; lia|].
  - constructor; cbn; auto. intros k. unfold hset. destruct (Z.eqb_spec k e) as [->|]; auto. rewrite Hx. cbn. now rewrite E.
  - destruct (wf_l _ W) as (L1 & L2). split; cbn; auto. intros k y. unfold hset. destruct (Z.eqb_spec k e) as [->|]; eauto.
    intros [= <-]. auto.
Qed.
Lemma put_att_ok d e x f : wf d -> d_atts d e = Some x -> ash (f x) = ash x -> zlen (a_cost (f x)) = MAXDOM -> zlen (a_dist (f x)) = MAXDOM ->
  exists d', put_att d e f = Some d' /\ wf d' /\ d' = set_atts d (hset (d_atts d) e (Some (f x))).
Proof.
  intros W Hx E L L'. unfold put_att. rewrite Hx. eexists. split; [reflexivity|]. split; auto.
  apply (wf_ext d); auto; [|cbn; lia|].
  - constructor; cbn; auto. intros k. unfold hset. destruct (Z.eqb_spec k e) as [->|]; auto. rewrite Hx. cbn. now rewrite E.
  - destruct (wf_l _ W) as (L1 & L2). split; cbn; auto. intros k y. unfold hset. destruct (Z.eqb_spec k e) as [->|]; eauto.
    intros [= <-]. auto.
Qed.
Lemma changed_wf d x : wf d -> wf (changed d x).
Proof. intros W. apply (wf_ext d); auto; [constructor; auto|cbn; lia|apply (wf_l _ W)]. Qed.

(** ** The parts of consistency *)
Definition NodesOk (d : db) : Prop :=
  (NoDup (d_tree d) /\ forall n, In n (d_tree d) <-> d_nodes d n <> None) /\
  (forall n m x y, d_nodes d n = Some x -> d_nodes d m = Some y -> n_addr x = n_addr y -> n = m) /\
  (forall n x, d_nodes d n = Some x -> NoDup (n_edges x) /\ NoDup (n_atts x)).
Record EdgesOk (H : Z -> Z -> Prop) (E : heap tedge) : Prop := {
  k_src : forall e x, E e = Some x -> H (e_src x) e;
  k_hooked : forall n e, H n e -> exists x, E e = Some x /\ e_src x = n;
  k_inv : forall e x, E e = Some x -> exists y,
    E (e_inv x) = Some y /\ e_inv y = e /\ e_src y = e_dst x /\ e_dst y = e_src x /\ (e_virt x = true -> e_virt y = false);
  k_self : forall e x, E e = Some x -> e_src x <> e_dst x;
  k_one : forall e f x y, E e = Some x -> E f = Some y -> e_src x = e_src y -> e_dst x = e_dst y -> e = f }.
Record AttsOk (H P : Z -> Z -> Prop) (T : heap tatt) : Prop := {
  k_att : forall a x, T a = Some x -> H (a_src x) a /\ P (a_dst x) a;
  k_att_n : forall n a, H n a -> exists x, T a = Some x /\ a_src x = n;
  k_att_p : forall p a, P p a -> exists x, T a = Some x /\ a_dst x = p;
  k_att_one : forall a b x y, T a = Some x -> T b = Some y -> a_src x = a_src y -> a_dst x = a_dst y -> a = b }.
Definition EpsOk (d : db) : Prop :=
  (NoDup (d_eptree d) /\ forall p, In p (d_eptree d) <-> d_eps d p <> None) /\
  (forall p q x y, d_eps d p = Some x -> d_eps d q = Some y -> p_key x = p_key y -> p = q) /\
  (forall p x, d_eps d p = Some x -> NoDup (p_atts x) /\ p_atts x <> []).

Lemma parts d : consistent d <-> NodesOk d /\ EdgesOk (has_edge d) (d_edges d) /\ AttsOk (has_att d) (ep_att d) (d_atts d) /\ EpsOk d.
Proof.
  split.
  - intros C. split; [|split; [|split]].
    + exact (conj (c_tree _ C) (conj (c_addr _ C) (c_nodup _ C))).
    + constructor; [exact (c_src _ C)|exact (c_hooked _ C)|exact (c_inv _ C)|exact (c_self _ C)|exact (c_one _ C)].
    + constructor; [exact (c_att _ C)|exact (c_att_n _ C)|exact (c_att_p _ C)|exact (c_att_one _ C)].
    + exact (conj (c_eptree _ C) (conj (c_key _ C) (c_ep _ C))).
  - intros ((N1 & N2 & N3) & [E1 E2 E3 E4 E5] & [A1 A2 A3 A4] & (P1 & P2 & P3)). constructor; assumption.
Qed.

Lemma EdgesOk_iff H H' E : (forall n e, H' n e <-> H n e) -> EdgesOk H E -> EdgesOk H' E.
Proof.
  intros Q [E1 E2 E3 E4 E5]. constructor; auto.
  - intros e x Hx. apply Q. auto.
  - intros n e Hn. apply E2, Q, Hn.
Qed.
Lemma AttsOk_iff H H' P P' T : (forall n e, H' n e <-> H n e) -> (forall n e, P' n e <-> P n e) -> AttsOk H P T -> AttsOk H' P' T.
Proof.
  intros Q R [E1 E2 E3 E4]. constructor; auto.
  - intros a x Hx. rewrite Q, R. auto.
  - intros n a Hn. apply E2, Q, Hn.
  - intros n a Hn. apply E3, R, Hn.
Qed.

(** a pair of edges comes *)
Lemma EdgesOk_add H E e i s t x y : EdgesOk H E -> E e = None -> E i = None -> e <> i -> s <> t ->
  e_src x = s -> e_dst x = t -> e_inv x = i -> e_virt x = false ->
  e_src y = t -> e_dst y = s -> e_inv y = e ->
  (forall f z, E f = Some z -> ~ (e_src z = s /\ e_dst z = t)) ->
  EdgesOk (fun n f => H n f \/ (n = s /\ f = e) \/ (n = t /\ f = i)) (hset (hset E e (Some x)) i (Some y)).
Proof.
  intros [E1 E2 E3 E4 E5] Fe Fi N Nst X1 X2 X3 X4 Y1 Y2 Y3 U.
  assert (U' : forall f z, E f = Some z -> ~ (e_src z = t /\ e_dst z = s)).
  { intros f z Hz (Q1 & Q2). destruct (E3 _ _ Hz) as (w & Hw & W1 & W2 & W3 & _). apply (U _ _ Hw). split; congruence. }
  assert (He : hset (hset E e (Some x)) i (Some y) e = Some x) by (rewrite hset_other, hset_same; auto).
  assert (Hi : hset (hset E e (Some x)) i (Some y) i = Some y) by (apply hset_same).
  assert (Ho : forall f, f <> e -> f <> i -> hset (hset E e (Some x)) i (Some y) f = E f) by (intros; rewrite !hset_other; auto).
  assert (Inv : forall f z, hset (hset E e (Some x)) i (Some y) f = Some z -> (f = e /\ z = x) \/ (f = i /\ z = y) \/ (f <> e /\ f <> i /\ E f = Some z)).
  { intros f z Hz. destruct (Z.eq_dec f i) as [->|]; [rewrite Hi in Hz; injection Hz as <-; auto|].
    destruct (Z.eq_dec f e) as [->|]; [rewrite He in Hz; injection Hz as <-; auto|]. rewrite Ho in Hz; auto. }
  constructor.
  - intros f z Hz. destruct (Inv _ _ Hz) as [(-> & ->)|[(-> & ->)|(N1 & N2 & Hz')]]; auto.
  - intros n f [Hn|[(-> & ->)|(-> & ->)]]; [|exists x; auto|exists y; auto].
    destruct (E2 _ _ Hn) as (z & Hz & Q). exists z. split; auto. rewrite Ho; auto; intros ->; congruence.
  - intros f z Hz. destruct (Inv _ _ Hz) as [(-> & ->)|[(-> & ->)|(N1 & N2 & Hz')]].
    + exists y. rewrite X3. repeat split; try congruence.
    + exists x. rewrite Y3. repeat split; try congruence.
    + destruct (E3 _ _ Hz') as (w & Hw & W). exists w. split; auto. rewrite Ho; auto; intros Q; rewrite Q in Hw; congruence.
  - intros f z Hz. destruct (Inv _ _ Hz) as [(-> & ->)|[(-> & ->)|(N1 & N2 & Hz')]]; [congruence|congruence|eauto].
  - intros f g z w Hz Hw Q1 Q2.
    destruct (Inv _ _ Hz) as [(-> & ->)|[(-> & ->)|(N1 & N2 & Hz')]]; destruct (Inv _ _ Hw) as [(-> & ->)|[(-> & ->)|(N3 & N4 & Hw')]];
      auto; try congruence; try (exfalso; eapply U; [eassumption|]; split; congruence); try (exfalso; eapply U'; [eassumption|]; split; congruence).
    eapply E5; eauto.
Qed.
(** a pair of edges goes *)
Lemma EdgesOk_del H E e x : EdgesOk H E -> E e = Some x ->
  EdgesOk (fun n f => H n f /\ f <> e /\ f <> e_inv x) (hset (hset E (e_inv x) None) e None).
Proof.
  intros [E1 E2 E3 E4 E5] Hx. destruct (E3 _ _ Hx) as (y & Hy & Y1 & Y2 & Y3 & Y4).
  assert (Inv : forall f z, hset (hset E (e_inv x) None) e None f = Some z -> f <> e /\ f <> e_inv x /\ E f = Some z).
  { intros f z. unfold hset. destruct (Z.eqb_spec f e); [discriminate|]. destruct (Z.eqb_spec f (e_inv x)); [discriminate|auto]. }
  assert (Ho : forall f, f <> e -> f <> e_inv x -> hset (hset E (e_inv x) None) e None f = E f) by (intros; rewrite !hset_other; auto).
  constructor.
  - intros f z Hz. destruct (Inv _ _ Hz) as (N1 & N2 & Hz'). auto.
  - intros n f (Hn & N1 & N2). rewrite Ho; auto.
  - intros f z Hz. destruct (Inv _ _ Hz) as (N1 & N2 & Hz'). destruct (E3 _ _ Hz') as (w & Hw & W1 & W).
    exists w. split; auto. rewrite Ho; auto.
    + intros Q. rewrite Q, Hx in Hw. injection Hw as <-. congruence.
    + intros Q. rewrite Q, Hy in Hw. injection Hw as <-. congruence.
  - intros f z Hz. destruct (Inv _ _ Hz) as (N1 & N2 & Hz'). eauto.
  - intros f g z w Hz Hw. destruct (Inv _ _ Hz) as (N1 & N2 & Hz'). destruct (Inv _ _ Hw) as (N3 & N4 & Hw'). eauto.
Qed.
(** an edge becomes virtual or real *)
Lemma EdgesOk_put H E e x x' : EdgesOk H E -> E e = Some x ->
  e_src x' = e_src x -> e_dst x' = e_dst x -> e_inv x' = e_inv x ->
  (e_virt x' = true -> forall y, E (e_inv x) = Some y -> e_virt y = false) ->
  EdgesOk H (hset E e (Some x')).
Proof.
  intros [E1 E2 E3 E4 E5] Hx X1 X2 X3 X4.
  assert (Inv : forall f z, hset E e (Some x') f = Some z -> (f = e /\ z = x') \/ (f <> e /\ E f = Some z)).
  { intros f z. unfold hset. destruct (Z.eqb_spec f e); [intros [= <-]; auto|auto]. }
  assert (Nx : e_inv x <> e).
  { intros Q. destruct (E3 _ _ Hx) as (y & Hy & _ & Y2 & _ & _). rewrite Q, Hx in Hy. injection Hy as <-. apply (E4 _ _ Hx). auto. }
  constructor.
  - intros f z Hz. destruct (Inv _ _ Hz) as [(-> & ->)|(N1 & Hz')]; auto. rewrite X1. auto.
  - intros n f Hn. destruct (E2 _ _ Hn) as (z & Hz & Q). destruct (Z.eq_dec f e) as [->|].
    + exists x'. rewrite hset_same. split; auto. congruence.
    + exists z. rewrite hset_other; auto.
  - intros f z Hz. destruct (Inv _ _ Hz) as [(-> & ->)|(N1 & Hz')].
    + destruct (E3 _ _ Hx) as (y & Hy & Y1 & Y2 & Y3 & _). exists y. rewrite X1, X2, X3. rewrite hset_other by auto.
      repeat split; auto.
    + destruct (E3 _ _ Hz') as (y & Hy & Y1 & Y2 & Y3 & Y4). destruct (Z.eq_dec (e_inv z) e) as [Q|Q].
      * rewrite Q in Hy |- *. assert (y = x) as -> by congruence. exists x'. rewrite hset_same. repeat split; try congruence.
        intros V. destruct (e_virt x') eqn:Vx; auto. specialize (X4 eq_refl z). rewrite Y1 in X4. specialize (X4 Hz'). congruence.
      * exists y. rewrite hset_other by auto. repeat split; auto.
  - intros f z Hz. destruct (Inv _ _ Hz) as [(-> & ->)|(N1 & Hz')]; [rewrite X1, X2|]; eauto.
  - intros f g z w Hz Hw Q1 Q2.
    destruct (Inv _ _ Hz) as [(-> & ->)|(N1 & Hz')]; destruct (Inv _ _ Hw) as [(-> & ->)|(N3 & Hw')]; auto.
    + eapply (E5 _ _ _ _ Hx Hw'); congruence.
    + eapply (E5 _ _ _ _ Hz' Hx); congruence.
    + eauto.
Qed.
(** an attachment comes, goes *)
Lemma AttsOk_add H P T a x : AttsOk H P T -> T a = None ->
  (forall b z, T b = Some z -> ~ (a_src z = a_src x /\ a_dst z = a_dst x)) ->
  AttsOk (fun n f => H n f \/ (n = a_src x /\ f = a)) (fun p f => P p f \/ (p = a_dst x /\ f = a)) (hset T a (Some x)).
Proof.
  intros [A1 A2 A3 A4] Ta U.
  assert (Inv : forall f z, hset T a (Some x) f = Some z -> (f = a /\ z = x) \/ (f <> a /\ T f = Some z)).
  { intros f z. unfold hset. destruct (Z.eqb_spec f a); [intros [= <-]; auto|auto]. }
  constructor.
  - intros f z Hz. destruct (Inv _ _ Hz) as [(-> & ->)|(N1 & Hz')]; auto. destruct (A1 _ _ Hz'); auto.
  - intros n f [Hn|(-> & ->)]; [|exists x; rewrite hset_same; auto]. destruct (A2 _ _ Hn) as (z & Hz & Q).
    exists z. split; auto. rewrite hset_other; auto. intros ->; congruence.
  - intros n f [Hn|(-> & ->)]; [|exists x; rewrite hset_same; auto]. destruct (A3 _ _ Hn) as (z & Hz & Q).
    exists z. split; auto. rewrite hset_other; auto. intros ->; congruence.
  - intros f g z w Hz Hw Q1 Q2.
    destruct (Inv _ _ Hz) as [(-> & ->)|(N1 & Hz')]; destruct (Inv _ _ Hw) as [(-> & ->)|(N3 & Hw')]; auto.
    + exfalso. eapply U; [exact Hw'|]. split; congruence.
    + exfalso. eapply U; [exact Hz'|]. split; congruence.
    + eauto.
Qed.
Lemma AttsOk_del H P T a : AttsOk H P T ->
  AttsOk (fun n f => H n f /\ f <> a) (fun p f => P p f /\ f <> a) (hset T a None).
Proof.
  intros [A1 A2 A3 A4].
  assert (Inv : forall f z, hset T a None f = Some z -> f <> a /\ T f = Some z).
  { intros f z. unfold hset. destruct (Z.eqb_spec f a); [discriminate|auto]. }
  constructor.
  - intros f z Hz. destruct (Inv _ _ Hz) as (N1 & Hz'). destruct (A1 _ _ Hz'); auto.
  - intros n f (Hn & N). destruct (A2 _ _ Hn) as (z & Hz & Q). exists z. rewrite hset_other; auto.
  - intros n f (Hn & N). destruct (A3 _ _ Hn) as (z & Hz & Q). exists z. rewrite hset_other; auto.
  - intros f g z w Hz Hw. destruct (Inv _ _ Hz) as (N1 & Hz'). destruct (Inv _ _ Hw) as (N3 & Hw'). eauto.
Qed.

(** * Operations *)
Lemma node_keys d : wf d -> forall x, In x (d_tree d) -> exists kx, node_key d x = Some kx.
Proof.
  intros W x I. apply (proj2 (c_tree _ (wf_c _ W))) in I. unfold node_key. destruct (d_nodes d x); [eauto|congruence].
Qed.
Lemma node_get_ok d a : wf d -> exists f, node_get d a = Some f /\
  match f with
  | Some n => exists x, d_nodes d n = Some x /\ n_addr x = a
  | None => forall n x, d_nodes d n = Some x -> n_addr x <> a
  end.
Proof.
  intros W. unfold node_get. destruct (tree_find_ok (node_key d) a (d_tree d) (node_keys d W)) as (f & F & P).
  exists f. split; auto. destruct f as [n|].
  - destruct P as (_ & P). unfold node_key in P. destruct (d_nodes d n) as [x|]; [|discriminate]. injection P as P. eauto.
  - intros n x Hx E. assert (In n (d_tree d)) as I by (apply (proj2 (c_tree _ (wf_c _ W))); congruence).
    specialize (P n I). unfold node_key in P. rewrite Hx in P. congruence.
Qed.
Lemma node_get_hit d n x : wf d -> d_nodes d n = Some x -> node_get d (n_addr x) = Some (Some n).
Proof.
  intros W Hx. destruct (node_get_ok d (n_addr x) W) as (f & F & P). rewrite F. destruct f as [m|].
  - destruct P as (y & Hy & E). f_equal. f_equal. eapply (c_addr _ (wf_c _ W)); eauto.
  - exfalso. eapply P; eauto.
Qed.

Definition new_node (addr vtime ansn : Z) : tnode := mkTN addr ansn (timer_set vtime) 0 false [] [].
Lemma node_new_ok d a v s : wf d -> (forall n x, d_nodes d n = Some x -> n_addr x <> a) ->
  exists t, node_add d a v s = Some (bump (set_nodes (set_tree d t) (hset (d_nodes d) (d_next d) (Some (new_node a v s)))) 1, d_next d) /\
  wf (bump (set_nodes (set_tree d t) (hset (d_nodes d) (d_next d) (Some (new_node a v s)))) 1).
Proof.
  intros W F. unfold node_add. destruct (node_get_ok d a W) as (f & Ef & P). rewrite Ef. destruct f as [n|].
  { destruct P as (x & Hx & E). exfalso. eapply F; eauto. }
  assert (K : forall x, In x (d_tree d) -> exists kx, node_key d x = Some kx /\ kx <> a).
  { intros x I. destruct (node_keys d W x I) as (kx & Hk). exists kx. split; auto. unfold node_key in Hk.
    destruct (d_nodes d x) as [y|] eqn:Hy; [|discriminate]. injection Hk as <-. eauto. }
  destruct (tree_ins_ok (node_key d) (d_next d) a (d_tree d) K) as (t & Et & Pt). rewrite Et. exists t. split; auto.
  destruct W as [C Fr L]. destruct (Fr (d_next d) ltac:(lia)) as (F1 & F2 & F3 & F4).
  pose proof (proj1 (parts d) C) as ((N1 & N2 & N3) & E & A & (P1 & P2 & P3)).
  assert (HN : forall n x, hset (d_nodes d) (d_next d) (Some (new_node a v s)) n = Some x -> (n = d_next d /\ x = new_node a v s) \/ (n <> d_next d /\ d_nodes d n = Some x)).
  { intros n x. unfold hset. destruct (Z.eqb_spec n (d_next d)); [intros [= <-]; auto|auto]. }
  constructor.
  - apply parts. split; [|split; [|split]].
    + split; [|split].
      * cbn. split.
        -- apply (perm_NoDup _ _ _ Pt); [|apply N1]. intros I. apply N1 in I. congruence.
        -- intros n. rewrite (perm_In _ _ _ n Pt). rewrite (proj2 N1). unfold hset. destruct (Z.eqb_spec n (d_next d)); split; intros; auto; try congruence. destruct H; congruence.
      * cbn. intros n m x y Hx Hy Q. destruct (HN _ _ Hx) as [(-> & ->)|(A1 & B1)]; destruct (HN _ _ Hy) as [(-> & ->)|(A2 & B2)]; auto.
        -- exfalso. eapply F; [exact B2|]. auto.
        -- exfalso. eapply F; [exact B1|]. auto.
        -- eauto.
      * cbn. intros n x Hx. destruct (HN _ _ Hx) as [(-> & ->)|(A1 & B1)]; [cbn; split; constructor|eauto].
    + cbn. eapply EdgesOk_iff; [|exact E]. intros n e. unfold has_edge. cbn. split; intros (x & Hx & I).
      * destruct (HN _ _ Hx) as [(-> & ->)|(A1 & B1)]; [destruct I|eauto].
      * exists x. split; auto. rewrite hset_other; auto. intros ->. congruence.
    + cbn. eapply AttsOk_iff; [| |exact A]; [|reflexivity]. intros n e. unfold has_att. cbn. split; intros (x & Hx & I).
      * destruct (HN _ _ Hx) as [(-> & ->)|(A1 & B1)]; [destruct I|eauto].
      * exists x. split; auto. rewrite hset_other; auto. intros ->. congruence.
    + exact (conj P1 (conj P2 P3)).
  - intros i Hi. cbn in Hi |- *. rewrite hset_other by lia. apply Fr. lia.
  - exact L.
Qed.
(** everything but the nodes is the same *)
Definition only_nodes (d d' : db) : Prop :=
  d_edges d' = d_edges d /\ d_atts d' = d_atts d /\ d_eps d' = d_eps d /\ d_eptree d' = d_eptree d /\ d_log d' = d_log d.
Lemma node_old_ok d n x v s : wf d -> d_nodes d n = Some x ->
  exists d', node_add d (n_addr x) v s = Some (d', n) /\ wf d' /\ only_nodes d d' /\ d_tree d' = d_tree d /\ d_next d' = d_next d /\
    d_nodes d' n = Some (nd_valid (timer_set v) (match n_valid x with None => nd_ansn s x | Some _ => x end)) /\
    forall m, m <> n -> d_nodes d' m = d_nodes d m.
Proof.
  intros W Hx. unfold node_add. rewrite (node_get_hit d n x W Hx), Hx. destruct (n_valid x) eqn:V.
  - destruct (put_node_ok d n x (nd_valid (timer_set v)) W Hx eq_refl) as (d1 & E1 & W1 & ->). rewrite E1.
    eexists. split; [reflexivity|]. split; auto. split; [repeat split|]. split; [auto|]. split; [auto|]. cbn. rewrite hset_same. split; auto.
    intros m N. apply hset_other; auto.
  - destruct (put_node_ok d n x (nd_ansn s) W Hx eq_refl) as (d1 & E1 & W1 & D1). rewrite E1.
    assert (H1 : d_nodes d1 n = Some (nd_ansn s x)) by (rewrite D1; apply hset_same).
    destruct (put_node_ok d1 n _ (nd_valid (timer_set v)) W1 H1 eq_refl) as (d2 & E2 & W2 & D2). rewrite E2.
    exists d2. split; [reflexivity|]. split; auto. subst d2 d1. split; [repeat split|]. split; [auto|]. split; [auto|]. cbn. rewrite hset_same. split; auto.
    intros m N. rewrite !hset_other; auto.
Qed.
(** adding a node in both cases *)
Definition added (d : db) (a v s n : Z) (x : tnode) : Prop :=
  (d_nodes d n = None /\ n = d_next d /\ x = new_node a v s) \/
  exists y, d_nodes d n = Some y /\ n_addr y = a /\ x = nd_valid (timer_set v) (match n_valid y with None => nd_ansn s y | Some _ => y end).
Lemma node_add_ok d a v s : wf d -> exists d' n x, node_add d a v s = Some (d', n) /\ wf d' /\ only_nodes d d' /\
  d_next d <= d_next d' /\ d_nodes d' n = Some x /\ n_addr x = a /\ added d a v s n x /\ forall m, m <> n -> d_nodes d' m = d_nodes d m.
Proof.
  intros W. destruct (node_get_ok d a W) as (f & Ef & P). destruct f as [n|].
  - destruct P as (x & Hx & E). subst a. destruct (node_old_ok d n x v s W Hx) as (d' & E1 & W1 & O & T & N & Hn & Ho).
    exists d', n, (nd_valid (timer_set v) (match n_valid x with None => nd_ansn s x | Some _ => x end)).
    split; auto. split; auto. split; auto. split; [lia|]. split; auto. split; [destruct (n_valid x); auto|]. split; auto.
    right. exists x. auto.
  - destruct (node_new_ok d a v s W P) as (t & E & W'). eexists _, _, (new_node a v s). split; [exact E|]. split; [exact W'|].
    split; [repeat split|]. cbn. split; [lia|]. rewrite hset_same. split; auto. split; auto. split.
    + left. split; auto. apply (wf_f _ W). lia.
    + intros m N. apply hset_other; auto.
Qed.

(** ** Edges *)
Lemma edge_keys d n x : wf d -> d_nodes d n = Some x -> forall e, In e (n_edges x) ->
  exists y z, d_edges d e = Some y /\ e_src y = n /\ d_nodes d (e_dst y) = Some z /\ edge_key d e = Some (n_addr z).
Proof.
  intros W Hx e I. destruct (c_hooked _ (wf_c _ W) n e) as (y & Hy & Sy); [exists x; auto|].
  destruct (c_inv _ (wf_c _ W) e y Hy) as (w & Hw & _ & W2 & _). destruct (c_src _ (wf_c _ W) _ _ Hw) as (z & Hz & _).
  rewrite W2 in Hz. exists y, z. repeat split; auto. unfold edge_key, node_key. now rewrite Hy, Hz.
Qed.
Lemma find_edge_ok d n x a : wf d -> d_nodes d n = Some x -> exists f, tree_find (edge_key d) (n_edges x) a = Some f /\
  match f with
  | Some e => In e (n_edges x) /\ exists y z, d_edges d e = Some y /\ e_src y = n /\ d_nodes d (e_dst y) = Some z /\ n_addr z = a
  | None => forall e y z, d_edges d e = Some y -> e_src y = n -> d_nodes d (e_dst y) = Some z -> n_addr z <> a
  end.
Proof.
  intros W Hx. destruct (tree_find_ok (edge_key d) a (n_edges x)) as (f & F & P).
  { intros e I. destruct (edge_keys d n x W Hx e I) as (y & z & _ & _ & _ & K). eauto. }
  exists f. split; auto. destruct f as [e|].
  - destruct P as (I & K). split; auto. destruct (edge_keys d n x W Hx e I) as (y & z & Hy & Sy & Hz & K'). exists y, z. repeat split; auto. congruence.
  - intros e y z Hy Sy Hz E. destruct (c_src _ (wf_c _ W) _ _ Hy) as (x' & Hx' & I). rewrite Sy, Hx in Hx'. injection Hx' as <-.
    specialize (P e I). destruct (edge_keys d n x W Hx e I) as (y' & z' & Hy' & Sy' & Hz' & K'). apply P. congruence.
Qed.

(** the fields of a node besides the tree of edges *)
Definition but_edges (x y : tnode) : Prop := y = nd_edges (n_edges y) x.
Lemma but_edges_refl x : but_edges x x.
Proof. destruct x; reflexivity. Qed.
Lemma but_edges_trans x y z : but_edges x y -> but_edges y z -> but_edges x z.
Proof. unfold but_edges. intros H1 H2. rewrite H2, H1. reflexivity. Qed.

(** What adding an edge does. *)
Record edge_added (d d' : db) (src addr e : Z) : Prop := {
  ea_edge : exists x z, d_edges d' e = Some x /\ e_src x = src /\ d_nodes d' (e_dst x) = Some z /\ n_addr z = addr /\
    e_virt x = false /\ e_cost x = no_cost /\
    (forall y, d_edges d e = Some y -> x = ed_cost no_cost (ed_virt false y)) /\
    (forall f y, f <> e -> d_edges d' f = Some y ->
       d_edges d f = Some y \/ (d_edges d f = None /\ d_edges d e = None /\ f = e_inv x /\ e_virt y = true /\ e_cost y = no_cost));
  ea_edges : forall f y, f <> e -> d_edges d f = Some y -> d_edges d' f = Some y;
  ea_nodes : forall n x, d_nodes d n = Some x -> exists x', d_nodes d' n = Some x' /\ but_edges x x' /\ (n_edges x <> [] -> n_edges x' <> []);
  ea_new : forall n x', d_nodes d' n = Some x' -> d_nodes d n <> None \/ (but_edges (new_node addr 0 0) x' /\ n_edges x' <> []);
  ea_rest : d_atts d' = d_atts d /\ d_eps d' = d_eps d /\ d_eptree d' = d_eptree d /\ d_log d' = d_log d /\ d_next d <= d_next d' }.

Lemma bump_wf d n : wf d -> 0 <= n -> wf (bump d n).
Proof. intros W N. apply (wf_ext d); auto; [constructor; auto|cbn; lia|apply (wf_l _ W)]. Qed.
Lemma no_cost_len : zlen no_cost = MAXDOM. Proof. reflexivity. Qed.

Lemma edge_add_ok d src a x : wf d -> d_nodes d src = Some x -> n_addr x <> a ->
  exists d' e, edge_add d src a = Some (d', e) /\ wf d' /\ edge_added d d' src a e.
Proof.
  intros W Hx Na. unfold edge_add. rewrite Hx. destruct (find_edge_ok d src x a W Hx) as (f & -> & P). destruct f as [e|].
  - destruct P as (I & y & z & Hy & Sy & Hz & Az). unfold put_edge. rewrite Hy. eexists _, e. split; [reflexivity|]. split.
    + pose proof W as [C Fr (L1 & L2)]. pose proof (proj1 (parts d) C) as (N & E & A & P). constructor.
      * apply parts. split; [exact N|]. split; [|split; [exact A|exact P]]. cbn.
        eapply EdgesOk_iff; [|apply (EdgesOk_put _ _ e y _ E Hy)]; try reflexivity. cbn. discriminate.
      * intros i Hi. destruct (Fr i Hi) as (F1 & F2 & F3 & F4). repeat split; auto. cbn. rewrite hset_other; auto. intros ->. congruence.
      * split; auto. cbn. intros k w. unfold hset. destruct (Z.eqb_spec k e); eauto. intros [= <-]. reflexivity.
    + constructor; cbn.
      * exists (ed_cost no_cost (ed_virt false y)), z. rewrite hset_same. cbn. repeat split; auto; [congruence|].
        intros f w N Hw. rewrite hset_other in Hw by auto. auto.
      * intros f w N Hw. rewrite hset_other; auto.
      * intros n w Hw. exists w. split; auto. split; [apply but_edges_refl|auto].
      * intros n w Hw. left. congruence.
      * repeat split; auto. lia.
  - set (e := d_next d). set (i := e + 1).
    assert (W0 : wf (bump d 2)) by (apply bump_wf; auto; lia).
    assert (Hd : exists d1 dst dx, (do g <- node_get (bump d 2) a; do dn <- match g with Some n => Some (bump d 2, n) | None => node_add (bump d 2) a 0 0 end; Some dn) = Some (d1, dst) /\
      wf d1 /\ only_nodes d d1 /\ d_next d + 2 <= d_next d1 /\ d_nodes d1 dst = Some dx /\ n_addr dx = a /\
      (forall m, m <> dst -> d_nodes d1 m = d_nodes d m) /\ (d_nodes d dst = Some dx \/ (d_nodes d dst = None /\ dx = new_node a 0 0))).
    { destruct (node_get_ok (bump d 2) a W0) as (g & -> & Pg). destruct g as [n|].
      - destruct Pg as (dx & Hdx & Adx). eexists _, n, dx. split; [reflexivity|]. split; auto. split; [repeat split|]. cbn. split; [lia|]. auto.
      - destruct (node_new_ok (bump d 2) a 0 0 W0 Pg) as (t & -> & W'). eexists _, _, (new_node a 0 0). split; [reflexivity|].
        split; [exact W'|]. split; [repeat split|]. cbn. rewrite hset_same. split; [lia|]. split; auto. split; auto. split.
        + intros m N. apply hset_other; auto.
        + right. split; auto. apply (wf_f _ W). lia. }
    destruct Hd as (d1 & dst & dx & Ed & W1 & (O1 & O2 & O3 & O4 & O5) & Nx & Hdx & Adx & Oth & Old).
    destruct (node_get (bump d 2) a) as [g|]; [|discriminate].
    destruct (match g with Some n => Some (bump d 2, n) | None => node_add (bump d 2) a 0 0 end) as [dn|]; [|discriminate].
    injection Ed as ->.
    assert (Nsd : src <> dst).
    { intros ->. destruct Old as [Q|(Q & _)]; congruence. }
    assert (Hsx : d_nodes d1 src = Some x) by (rewrite Oth; auto). rewrite Hsx, Hdx.
    set (xe := mkTE src dst i no_cost 0 false). set (xi := mkTE dst src e no_cost 0 true).
    set (d2 := set_edges d1 (hset (d_edges d1) e (Some xe))).
    destruct (wf_f _ W e ltac:(unfold e; lia)) as (Fe1 & Fe2 & _). destruct (wf_f _ W i ltac:(unfold i, e; lia)) as (Fi1 & Fi2 & _).
    assert (NoDst : forall f z, d_edges d1 f = Some z -> ~ (e_src z = src /\ e_dst z = dst)).
    { rewrite O1. intros f z Hz (Q1 & Q2). destruct (c_inv _ (wf_c _ W) _ _ Hz) as (w & Hw & _ & W2 & _).
      destruct (c_src _ (wf_c _ W) _ _ Hw) as (u & Hu & _). rewrite W2 in Hu. apply (P f z u Hz Q1 Hu).
      rewrite Q2 in Hu. destruct Old as [Q|(Q & _)]; congruence. }
    assert (K1 : forall f, In f (n_edges x) -> exists kx, edge_key d2 f = Some kx /\ kx <> n_addr dx).
    { intros f I. destruct (edge_keys d1 src x W1 Hsx f I) as (y & z & Hy & Sy & Hz & K). exists (n_addr z). split.
      - unfold edge_key, d2. cbn. rewrite hset_other by (intros ->; congruence). rewrite Hy. unfold node_key. cbn. now rewrite Hz.
      - intros Q. assert (e_dst y = dst) by (eapply (c_addr _ (wf_c _ W1)); eauto). eapply NoDst; eauto. }
    destruct (tree_ins_ok (edge_key d2) e (n_addr dx) (n_edges x) K1) as (t & Et & Pt).
    cbv beta iota zeta. fold xe xi d2.
    unfold hook_edge at 1. replace (d_nodes d2 src) with (Some x) by (symmetry; exact Hsx). rewrite Et. unfold put_node at 1.
    replace (d_nodes d2 src) with (Some x) by (symmetry; exact Hsx).
    set (d3 := set_nodes d2 (hset (d_nodes d2) src (Some (nd_edges t x)))).
    set (d4 := set_edges d3 (hset (d_edges d3) i (Some xi))).
    assert (H4 : d_nodes d4 dst = Some dx) by (cbn; rewrite hset_other; auto).
    assert (K2 : forall f, In f (n_edges dx) -> exists kx, edge_key d4 f = Some kx /\ kx <> n_addr x).
    { intros f I. destruct (edge_keys d1 dst dx W1 Hdx f I) as (y & z & Hy & Sy & Hz & K).
      assert (f <> e) by (intros ->; congruence). assert (f <> i) by (intros ->; congruence).
      assert (e_dst y <> src).
      { intros Q. destruct (c_inv _ (wf_c _ W1) _ _ Hy) as (w & Hw & _ & W2 & W3 & _). apply (NoDst _ _ Hw). split; congruence. }
      exists (n_addr z). split.
      - unfold edge_key. cbn. rewrite !hset_other by auto. rewrite Hy. unfold node_key. cbn. rewrite hset_other by auto. now rewrite Hz.
      - intros Q. assert (e_dst y = src) by (eapply (c_addr _ (wf_c _ W1)); eauto). contradiction. }
    destruct (tree_ins_ok (edge_key d4) i (n_addr x) (n_edges dx) K2) as (u & Eu & Pu).
    unfold hook_edge. rewrite H4, Eu. unfold put_node. rewrite H4.
    eexists _, e. split; [reflexivity|].
    set (d5 := set_nodes d4 (hset (d_nodes d4) dst (Some (nd_edges u dx)))).
    assert (Nei : e <> i) by (unfold e, i; lia).
    assert (H5 : forall n y, d_nodes d5 n = Some y -> (n = src /\ y = nd_edges t x) \/ (n = dst /\ y = nd_edges u dx) \/ (n <> src /\ n <> dst /\ d_nodes d1 n = Some y)).
    { intros n y. cbn. unfold hset. destruct (Z.eqb_spec n dst); [intros [= <-]; auto|]. destruct (Z.eqb_spec n src); [intros [= <-]; auto|auto]. }
    assert (Hs5 : d_nodes d5 src = Some (nd_edges t x)) by (cbn; rewrite hset_other, hset_same; auto).
    assert (Hd5 : d_nodes d5 dst = Some (nd_edges u dx)) by (cbn; rewrite hset_same; auto).
    assert (Ho5 : forall n, n <> src -> n <> dst -> d_nodes d5 n = d_nodes d1 n) by (intros; cbn; rewrite !hset_other; auto).
    pose proof W1 as [C1 Fr1 (L1 & L2)]. pose proof (proj1 (parts d1) C1) as ((N1 & N2 & N3) & E & A & Pp).
    assert (Hne : forall n y, d_nodes d5 n = Some y -> exists y', d_nodes d1 n = Some y' /\ n_addr y = n_addr y' /\ n_atts y = n_atts y').
    { intros n y Hy. destruct (H5 _ _ Hy) as [(-> & ->)|[(-> & ->)|(_ & _ & Q)]]; eauto. }
    split.
    + constructor.
      * apply parts. split; [|split; [|split]].
        -- split; [|split].
           ++ split; [apply N1|]. intros n. change (d_tree d5) with (d_tree d1). rewrite (proj2 N1). destruct (Z.eq_dec n src) as [->|]; [split; congruence|].
              destruct (Z.eq_dec n dst) as [->|]; [split; congruence|]. rewrite Ho5; auto. reflexivity.
           ++ intros n m y z Hy Hz Q. destruct (Hne _ _ Hy) as (y' & Hy' & Q1 & _). destruct (Hne _ _ Hz) as (z' & Hz' & Q2 & _).
              eapply N2; eauto. congruence.
           ++ intros n y Hy. destruct (H5 _ _ Hy) as [(-> & ->)|[(-> & ->)|(_ & _ & Q)]]; [| |eauto].
              ** cbn. destruct (N3 _ _ Hsx) as (Q1 & Q2). split; auto. eapply perm_NoDup; eauto. intros I.
                 destruct (edge_keys d1 src x W1 Hsx _ I) as (w & _ & Hw & _). congruence.
              ** cbn. destruct (N3 _ _ Hdx) as (Q1 & Q2). split; auto. eapply perm_NoDup; eauto. intros I.
                 destruct (edge_keys d1 dst dx W1 Hdx _ I) as (w & _ & Hw & _). congruence.
        -- change (d_edges d5) with (hset (hset (d_edges d1) e (Some xe)) i (Some xi)).
           eapply EdgesOk_iff; [|apply (EdgesOk_add (has_edge d1) (d_edges d1) e i src dst xe xi E)]; auto; try congruence.
           intros n f. unfold has_edge. split.
           ++ intros (y & Hy & I). destruct (H5 _ _ Hy) as [(-> & ->)|[(-> & ->)|(_ & _ & Q)]].
              ** cbn in I. apply (perm_In _ _ _ f Pt) in I. destruct I as [->|I]; eauto.
              ** cbn in I. apply (perm_In _ _ _ f Pu) in I. destruct I as [->|I]; eauto.
              ** eauto.
           ++ intros [(y & Hy & I)|[(-> & ->)|(-> & ->)]].
              ** destruct (Z.eq_dec n src) as [->|]; [|destruct (Z.eq_dec n dst) as [->|]].
                 --- exists (nd_edges t x). split; auto. cbn. apply (perm_In _ _ _ f Pt). right. congruence.
                 --- exists (nd_edges u dx). split; auto. cbn. apply (perm_In _ _ _ f Pu). right. congruence.
                 --- exists y. rewrite Ho5; auto.
              ** exists (nd_edges t x). split; auto. cbn. apply (perm_In _ _ _ e Pt). auto.
              ** exists (nd_edges u dx). split; auto. cbn. apply (perm_In _ _ _ i Pu). auto.
        -- eapply AttsOk_iff; [| |exact A]; [|reflexivity]. intros n f. unfold has_att. split.
           ++ intros (y & Hy & I). destruct (Hne _ _ Hy) as (y' & Hy' & _ & Q). exists y'. split; auto. congruence.
           ++ intros (y & Hy & I). destruct (Z.eq_dec n src) as [->|]; [|destruct (Z.eq_dec n dst) as [->|]].
              ** exists (nd_edges t x). split; auto. cbn. congruence.
              ** exists (nd_edges u dx). split; auto. cbn. congruence.
              ** exists y. rewrite Ho5; auto.
        -- exact Pp.
      * intros k Hk. change (d_next d5) with (d_next d1) in Hk. destruct (Fr1 k Hk) as (F1 & F2 & F3 & F4).
        split; [|split; [|split]]; auto.
        -- destruct (d_nodes d5 k) as [y|] eqn:Hy; auto. destruct (Hne _ _ Hy) as (y' & Hy' & _). congruence.
        -- cbn. rewrite !hset_other; auto; unfold e, i; lia.
      * split; [exact L1|]. cbn. intros f y. unfold hset. destruct (Z.eqb_spec f i); [intros [= <-]; reflexivity|].
        destruct (Z.eqb_spec f e); [intros [= <-]; reflexivity|]. apply L2.
    + assert (De : d_edges d5 e = Some xe) by (cbn; rewrite hset_other, hset_same; auto).
      constructor.
      * exists xe, (nd_edges u dx). repeat split; auto.
        -- intros y Hy. congruence.
        -- intros f y Nf. cbn. unfold hset. destruct (Z.eqb_spec f i) as [->|].
           ++ intros [= <-]. right. auto.
           ++ destruct (Z.eqb_spec f e); [congruence|]. rewrite O1. auto.
      * intros f y Nf Hy. cbn. rewrite !hset_other; auto; [congruence|intros ->; congruence].
      * intros n y Hy. destruct (Z.eq_dec n src) as [->|]; [|destruct (Z.eq_dec n dst) as [->|]].
        -- exists (nd_edges t x). split; auto. assert (y = x) as -> by congruence. split; [reflexivity|].
           cbn. intros _ Q. rewrite Q in Pt. apply Permutation_nil in Pt. discriminate.
        -- exists (nd_edges u dx). split; auto. destruct Old as [Q|(Q & _)]; [|congruence]. assert (y = dx) as -> by congruence. split; [reflexivity|].
           cbn. intros _ Q1. rewrite Q1 in Pu. apply Permutation_nil in Pu. discriminate.
        -- exists y. rewrite Ho5, Oth; auto. split; auto. split; [apply but_edges_refl|auto].
      * intros n y Hy. destruct (H5 _ _ Hy) as [(-> & ->)|[(-> & ->)|(M1 & M2 & Q)]].
        -- left. congruence.
        -- destruct Old as [Q|(Q & ->)]; [left; congruence|right]. split; [reflexivity|].
           cbn. intros Q1. rewrite Q1 in Pu. apply Permutation_nil in Pu. discriminate.
        -- rewrite Oth in Q; auto. left. congruence.
      * cbn. repeat split; auto. lia.
Qed.

(** ** Attachments *)
(** endpoints only lose attachments *)
Definition eps_sub (d d' : db) : Prop := forall p y', d_eps d' p = Some y' -> exists y, d_eps d p = Some y /\ p_key y' = p_key y.
Lemma eps_sub_refl d : eps_sub d d. Proof. intros p y. eauto. Qed.
Lemma eps_sub_trans a b c : eps_sub a b -> eps_sub b c -> eps_sub a c.
Proof. intros H1 H2 p y Hy. destruct (H2 _ _ Hy) as (z & Hz & E). destruct (H1 _ _ Hz) as (w & Hw & E'). exists w. split; auto. congruence. Qed.
Definition more_log (d d' : db) : Prop := exists k, d_log d' = d_log d ++ repeat None k.
Lemma more_log_refl d : more_log d d. Proof. exists 0%nat. cbn. now rewrite app_nil_r. Qed.
Definition longer (d d' : db) : Prop := (length (d_log d) < length (d_log d'))%nat.
Lemma more_longer d d' : more_log d d' -> (length (d_log d) <= length (d_log d'))%nat.
Proof. intros (k & ->). rewrite app_length. lia. Qed.
Lemma more_log_trans a b c : more_log a b -> more_log b c -> more_log a c.
Proof. intros (k & H1) (l & H2). exists (k + l)%nat. rewrite H2, H1, <- app_assoc, <- repeat_app. reflexivity. Qed.

(** attachments of node [n] in [R] are removed *)
Record atts_gone (d d' : db) (n : Z) (R : Z -> bool) : Prop := {
  ag_edges : d_edges d' = d_edges d;
  ag_tree : d_tree d' = d_tree d;
  ag_next : d_next d' = d_next d;
  ag_node : forall x, d_nodes d n = Some x -> exists l, d_nodes d' n = Some (nd_atts l x) /\ forall b, In b l <-> In b (n_atts x) /\ R b = false;
  ag_nodes : forall m, m <> n -> d_nodes d' m = d_nodes d m;
  ag_atts : forall a, d_atts d' a = if R a then None else d_atts d a;
  ag_eps : eps_sub d d';
  ag_log : more_log d d' }.
Lemma atts_gone_refl d n : atts_gone d d n (fun _ => false).
Proof.
  constructor; auto using eps_sub_refl, more_log_refl. intros x Hx. exists (n_atts x). split; [rewrite Hx; destruct x; reflexivity|].
  intros b. tauto.
Qed.
Lemma atts_gone_trans a b c n R S : atts_gone a b n R -> atts_gone b c n S -> atts_gone a c n (fun x => R x || S x).
Proof.
  intros [A1 A2 A3 A4 A5 A6 A7 A8] [B1 B2 B3 B4 B5 B6 B7 B8]. constructor; try congruence.
  - intros x Hx. destruct (A4 _ Hx) as (l & Hl & Il). destruct (B4 _ Hl) as (k & Hk & Ik). exists k. split; [rewrite Hk; reflexivity|].
    intros z. rewrite Ik. cbn. rewrite Il. rewrite orb_false_iff. tauto.
  - intros m N. rewrite B5, A5; auto.
  - intros x. rewrite B6, A6. destruct (R x), (S x); reflexivity.
  - eapply eps_sub_trans; eauto.
  - eapply more_log_trans; eauto.
Qed.
Lemma atts_gone_ext d d' n R S : (forall a, R a = S a) -> atts_gone d d' n R -> atts_gone d d' n S.
Proof.
  intros E [A1 A2 A3 A4 A5 A6 A7 A8]. constructor; auto.
  - intros x Hx. destruct (A4 _ Hx) as (l & Hl & Il). exists l. split; auto. intros b. rewrite Il, E. tauto.
  - intros a. rewrite A6, E. reflexivity.
Qed.

Lemma att_parts d a x : wf d -> d_atts d a = Some x -> exists n p,
  d_nodes d (a_src x) = Some n /\ In a (n_atts n) /\ NoDup (n_atts n) /\ d_eps d (a_dst x) = Some p /\ In a (p_atts p) /\ NoDup (p_atts p).
Proof.
  intros W Hx. destruct (c_att _ (wf_c _ W) _ _ Hx) as ((n & Hn & I1) & (p & Hp & I2)). exists n, p.
  pose proof (c_nodup _ (wf_c _ W) _ _ Hn). pose proof (c_ep _ (wf_c _ W) _ _ Hp). intuition.
Qed.

Lemma endpoint_remove_ok d a x : wf d -> d_atts d a = Some x ->
  exists d', endpoint_remove d a = Some d' /\ wf d' /\ atts_gone d d' (a_src x) (Z.eqb a) /\ d_log d' = d_log d ++ [None].
Proof.
  intros W Hx. destruct (att_parts d a x W Hx) as (n & p & Hn & I1 & N1 & Hp & I2 & N2).
  unfold endpoint_remove. rewrite Hx, Hn. destruct (tree_del_ok a _ I1 N1) as (l & -> & Nl & Il).
  unfold put_node. rewrite Hn. cbn [set_nodes d_eps]. rewrite Hp. destruct (tree_del_ok a _ I2 N2) as (m & -> & Nm & Im).
  unfold put_ep. cbn [set_nodes d_eps]. rewrite Hp.
  pose proof W as [C Fr (L1 & L2)]. pose proof (proj1 (parts d) C) as ((T1 & T2 & T3) & E & A & (P1 & P2 & P3)).
  set (d2 := set_eps (set_nodes d (hset (d_nodes d) (a_src x) (Some (nd_atts l n)))) (hset (d_eps d) (a_dst x) (Some (pt_atts m p)))).
  assert (Hd3 : exists d3, (match m with [] => do t <- tree_del (a_dst x) (d_eptree d2); Some (set_eps (set_eptree d2 t) (hset (d_eps d2) (a_dst x) None)) | _ :: _ => Some d2 end) = Some d3 /\
     d_nodes d3 = d_nodes d2 /\ d_tree d3 = d_tree d /\ d_edges d3 = d_edges d /\ d_atts d3 = d_atts d /\ d_next d3 = d_next d /\ d_log d3 = d_log d /\
     (forall q, q <> a_dst x -> d_eps d3 q = d_eps d q) /\
     d_eps d3 (a_dst x) = (match m with [] => None | _ => Some (pt_atts m p) end) /\
     NoDup (d_eptree d3) /\ forall q, In q (d_eptree d3) <-> d_eps d3 q <> None).
  { destruct m as [|b m].
    - destruct (tree_del_ok (a_dst x) (d_eptree d)) as (t & Et & Nt & It); [apply (proj2 P1); congruence|apply P1|].
      change (d_eptree d2) with (d_eptree d). rewrite Et. eexists. split; [reflexivity|]. cbn. repeat split; auto.
      + intros q Nq. rewrite !hset_other; auto.
      + rewrite hset_same. auto.
      + intros I. apply It in I. destruct I as (I & Nq). rewrite !hset_other by auto. apply P1; auto.
      + intros Q. apply It. destruct (Z.eq_dec q (a_dst x)) as [->|]; [rewrite hset_same in Q; congruence|]. rewrite !hset_other in Q by auto.
        split; auto. apply P1; auto.
    - eexists. split; [reflexivity|]. cbn. repeat split; auto.
      + intros q Nq. rewrite !hset_other; auto.
      + rewrite hset_same. auto.
      + apply P1.
      + intros I. destruct (Z.eq_dec q (a_dst x)) as [->|]; [rewrite hset_same; congruence|]. rewrite hset_other by auto. apply P1; auto.
      + intros Q. apply P1. destruct (Z.eq_dec q (a_dst x)) as [->|]; [congruence|]. rewrite hset_other in Q by auto. auto. }
  destruct Hd3 as (d3 & -> & D1 & D2 & D3 & D4 & D5 & D6 & D7 & D8 & D9 & D10).
  eexists. split; [reflexivity|].
  set (d' := changed _ None).
  assert (Hs : d_nodes d' (a_src x) = Some (nd_atts l n)) by (cbn; rewrite D1; cbn; apply hset_same).
  assert (Ho : forall k, k <> a_src x -> d_nodes d' k = d_nodes d k) by (intros; cbn; rewrite D1; cbn; apply hset_other; auto).
  assert (Nn : forall k y', d_nodes d' k = Some y' -> exists y, d_nodes d k = Some y /\ n_addr y' = n_addr y /\ n_edges y' = n_edges y /\ NoDup (n_atts y') /\ (forall b, In b (n_atts y') <-> In b (n_atts y) /\ b <> a)).
  { intros k y' Hy. destruct (Z.eq_dec k (a_src x)) as [->|Nk].
    - rewrite Hs in Hy. injection Hy as <-. exists n. repeat split; auto; apply Il; auto.
    - rewrite Ho in Hy by auto. exists y'. repeat split; auto; [apply (T3 _ _ Hy)| |tauto].
      intros ->. apply Nk. destruct (c_att_n _ C k a) as (z & Hz & Ez); [exists y'; auto|]. congruence. }
  assert (Np : forall k y', d_eps d' k = Some y' -> exists y, d_eps d k = Some y /\ p_key y' = p_key y /\ NoDup (p_atts y') /\ p_atts y' <> [] /\ (forall b, In b (p_atts y') <-> In b (p_atts y) /\ b <> a)).
  { intros k y' Hy. cbn in Hy. destruct (Z.eq_dec k (a_dst x)) as [->|Nk].
    - rewrite D8 in Hy. destruct m as [|b m]; [discriminate|]. injection Hy as <-. exists p. split; auto. split; auto. cbn [pt_atts p_atts]. split; auto. split; [discriminate|auto].
    - rewrite D7 in Hy by auto. destruct (P3 _ _ Hy) as (Q1 & Q2). exists y'. repeat split; auto; [|tauto].
      intros ->. apply Nk. destruct (c_att_p _ C k a) as (z & Hz & Ez); [exists y'; auto|]. congruence. }
  split; [|split].
  - constructor.
    + apply parts. split; [|split; [|split]].
      * split; [|split].
        -- split; [cbn; rewrite D2; apply T1|]. intros k. cbn [d' changed set_atts d_tree]. rewrite D2, (proj2 T1).
           destruct (Z.eq_dec k (a_src x)) as [->|Nk]; [split; congruence|]. rewrite Ho by auto. reflexivity.
        -- intros k j y z Hy Hz Q. destruct (Nn _ _ Hy) as (y0 & Hy0 & Q1 & _). destruct (Nn _ _ Hz) as (z0 & Hz0 & Q2 & _). eapply T2; eauto. congruence.
        -- intros k y Hy. destruct (Nn _ _ Hy) as (y0 & Hy0 & _ & Q2 & Q3 & _). split; auto. rewrite Q2. apply (T3 _ _ Hy0).
      * cbn [d' changed set_atts d_edges]. rewrite D3. eapply EdgesOk_iff; [|exact E]. intros k e. split.
        -- intros (y & Hy & I). destruct (Nn _ _ Hy) as (y0 & Hy0 & _ & Q2 & _). exists y0. split; auto. congruence.
        -- intros (y & Hy & I). destruct (Z.eq_dec k (a_src x)) as [->|Nk]; [exists (nd_atts l n); split; auto; cbn; congruence|].
           exists y. rewrite Ho; auto.
      * cbn [d' changed set_atts d_atts]. rewrite D4. eapply AttsOk_iff; [| |apply (AttsOk_del _ _ _ a A)].
        -- intros k b. split.
           ++ intros (y & Hy & I). destruct (Nn _ _ Hy) as (y0 & Hy0 & _ & _ & _ & Q). apply Q in I. split; [exists y0; tauto|tauto].
           ++ intros ((y & Hy & I) & Nb). destruct (Z.eq_dec k (a_src x)) as [->|Nk].
              ** exists (nd_atts l n). split; auto. cbn. apply Il. split; auto. congruence.
              ** exists y. rewrite Ho; auto.
        -- intros k b. split.
           ++ intros (y & Hy & I). destruct (Np _ _ Hy) as (y0 & Hy0 & _ & _ & _ & Q). apply Q in I. split; [exists y0; tauto|tauto].
           ++ intros ((y & Hy & I) & Nb). destruct (Z.eq_dec k (a_dst x)) as [->|Nk].
              ** assert (In b m) as Ib by (apply Im; split; auto; congruence). exists (pt_atts m p). split; auto. cbn. rewrite D8. destruct m; [destruct Ib|auto].
              ** exists y. cbn. rewrite D7; auto.
      * split; [|split].
        -- split; [exact D9|exact D10].
        -- intros k j y z Hy Hz Q. destruct (Np _ _ Hy) as (y0 & Hy0 & Q1 & _). destruct (Np _ _ Hz) as (z0 & Hz0 & Q2 & _). eapply P2; eauto. congruence.
        -- intros k y Hy. destruct (Np _ _ Hy) as (y0 & Hy0 & _ & Q2 & Q3 & _). auto.
    + intros i Hi. cbn [d' changed set_atts d_next] in Hi. rewrite D5 in Hi. destruct (Fr i Hi) as (F1 & F2 & F3 & F4).
      split; [|split; [|split]].
      * destruct (d_nodes d' i) eqn:Q; auto. destruct (Nn _ _ Q) as (y0 & Hy0 & _). congruence.
      * cbn. congruence.
      * cbn. unfold hset. destruct (i =? a); congruence.
      * destruct (d_eps d' i) eqn:Q; auto. destruct (Np _ _ Q) as (y0 & Hy0 & _). congruence.
    + split; cbn; rewrite ?D3, ?D4; auto. intros k y. unfold hset. destruct (k =? a); [discriminate|]. apply L1.
  - constructor; auto.
    + intros y Hy. exists l. split; [congruence|]. intros b. assert (y = n) as -> by congruence. rewrite Il. destruct (Z.eqb_spec a b); intuition congruence.
    + intros b. cbn. rewrite D4. unfold hset. rewrite Z.eqb_sym. reflexivity.
    + intros k y Hy. destruct (Np _ _ Hy) as (y0 & Hy0 & Q & _). eauto.
    + exists 1%nat. cbn. rewrite D6. reflexivity.
  - cbn. rewrite D6. reflexivity.
Qed.

Lemma mem_dec (l : list Z) (b : Z) : existsb (Z.eqb b) l = true <-> In b l.
Proof. rewrite existsb_exists. split; [intros (x & I & E); apply Z.eqb_eq in E; congruence|intros I; exists b; split; auto; apply Z.eqb_refl]. Qed.

(** a loop that removes the attachments of node [n] for which [R] holds *)
Lemma each_atts (f : db -> Z -> option db) n (R : Z -> bool) (G : db -> Prop) : forall l d, wf d -> G d -> NoDup l ->
  (forall a, In a l -> exists x, d_atts d a = Some x /\ a_src x = n) ->
  (forall d a x, wf d -> G d -> In a l -> d_atts d a = Some x -> a_src x = n -> f d a = if R a then endpoint_remove d a else Some d) ->
  (forall d d' S, G d -> atts_gone d d' n S -> G d') ->
  exists d', each f l d = Some d' /\ wf d' /\ G d' /\ atts_gone d d' n (fun a => existsb (Z.eqb a) l && R a) /\
    (forall a, In a l -> R a = true -> longer d d').
Proof.
  induction l as [|a l IH]; intros d W Gd ND Hl Hf HG; cbn [each].
  - exists d. split; auto. split; auto. split; auto. split; [|intros a []]. apply (atts_gone_ext d d n (fun _ => false)); auto. apply atts_gone_refl.
  - destruct (Hl a (or_introl eq_refl)) as (x & Hx & Sx). rewrite (Hf d a x W Gd (or_introl eq_refl) Hx Sx). inversion ND as [|? ? NI ND']; subst.
    assert (K : exists d1, (if R a then endpoint_remove d a else Some d) = Some d1 /\ wf d1 /\ G d1 /\ atts_gone d d1 (a_src x) (fun b => Z.eqb a b && R a) /\ (R a = true -> longer d d1)).
    { destruct (R a) eqn:Ra.
      - destruct (endpoint_remove_ok d a x W Hx) as (d1 & E1 & W1 & A1 & Lg). exists d1. split; auto. split; auto. split; [eapply HG; eauto|].
        split; [eapply atts_gone_ext; [|exact A1]; intros b; cbn; now rewrite andb_true_r|]. intros _. unfold longer. rewrite Lg, app_length. cbn. lia.
      - exists d. split; auto. split; auto. split; auto. split; [|discriminate]. eapply atts_gone_ext; [|apply atts_gone_refl]. intros b. cbn. now rewrite andb_false_r. }
    destruct K as (d1 & -> & W1 & G1 & A1 & Lg1).
    destruct (IH d1 W1 G1 ND') as (d2 & E2 & W2 & G2 & A2 & Lg2).
    + intros b I. destruct (Hl b (or_intror I)) as (y & Hy & Sy). exists y. split; auto. rewrite (ag_atts _ _ _ _ A1).
      destruct (Z.eqb_spec a b); [congruence|auto].
    + intros d0 b y W0 G0 I Hy Sy. apply (Hf d0 b y W0 G0 (or_intror I) Hy Sy).
    + exact HG.
    + exists d2. split; auto. split; auto. split; auto.
      split; [|intros b [<-|I] Rb; [specialize (Lg1 Rb); pose proof (more_longer _ _ (ag_log _ _ _ _ A2)); unfold longer in *; lia
               |specialize (Lg2 b I Rb); pose proof (more_longer _ _ (ag_log _ _ _ _ A1)); unfold longer in *; lia]].
      eapply atts_gone_ext; [|eapply atts_gone_trans; [exact A1|exact A2]].
      intros b. cbn. rewrite (Z.eqb_sym b a). destruct (Z.eqb_spec a b) as [<-|]; cbn; [|reflexivity].
      destruct (R a); cbn; [reflexivity|]. now rewrite andb_false_r.
Qed.

(** What removing a node does after its edges. *)
Definition finished_node (x : tnode) : option tnode :=
  match n_edges x, n_direct x with [], false => None | _, _ => Some (nd_valid None (nd_atts [] x)) end.
Record finished (d d' : db) (n : Z) : Prop := {
  fi_edges : d_edges d' = d_edges d;
  fi_next : d_next d' = d_next d;
  fi_node : forall x, d_nodes d n = Some x -> d_nodes d' n = finished_node x;
  fi_nodes : forall m, m <> n -> d_nodes d' m = d_nodes d m;
  fi_atts : forall a, d_atts d' a = match d_atts d a with Some y => if a_src y =? n then None else Some y | None => None end;
  fi_eps : eps_sub d d';
  fi_log : more_log d d' /\ d_log d' <> d_log d }.

Lemma node_finish_ok d n x : wf d -> d_nodes d n = Some x ->
  exists d', node_finish d n = Some d' /\ wf d' /\ finished d d' n.
Proof.
  intros W Hx. unfold node_finish. rewrite Hx. destruct (c_nodup _ (wf_c _ W) _ _ Hx) as (_ & ND).
  destruct (each_atts endpoint_remove n (fun _ => true) (fun _ => True) (n_atts x) d W Logic.I ND) as (d1 & E1 & W1 & _ & A1 & _); auto.
  { intros a I. apply (c_att_n _ (wf_c _ W)). exists x; auto. }
  rewrite E1. destruct (ag_node _ _ _ _ A1 _ Hx) as (l & Hl & Il).
  assert (l = []) as ->.
  { destruct l as [|b l]; auto. exfalso. destruct (proj1 (Il b) (or_introl eq_refl)) as (I & Q). rewrite andb_true_r in Q. apply mem_dec in I. congruence. }
  destruct (put_node_ok d1 n _ (nd_valid None) W1 Hl eq_refl) as (d2 & E2 & W2 & D2). rewrite E2.
  assert (H2 : d_nodes d2 n = Some (nd_valid None (nd_atts [] x))) by (rewrite D2; cbn; apply hset_same). rewrite H2. cbn [nd_valid nd_atts n_edges n_direct].
  assert (Ha : forall a, d_atts d2 a = match d_atts d a with Some y => if a_src y =? n then None else Some y | None => None end).
  { intros a. rewrite D2. cbn. rewrite (ag_atts _ _ _ _ A1), andb_true_r. destruct (d_atts d a) as [y|] eqn:Hy; [|destruct (existsb _ _); auto].
    destruct (existsb (Z.eqb a) (n_atts x)) eqn:M.
    - apply mem_dec in M. destruct (c_att_n _ (wf_c _ W) n a) as (z & Hz & Q); [exists x; auto|]. assert (z = y) as -> by congruence. rewrite Q, Z.eqb_refl. auto.
    - destruct (Z.eqb_spec (a_src y) n) as [Q|]; auto. exfalso. destruct (c_att _ (wf_c _ W) _ _ Hy) as ((z & Hz & I) & _). rewrite Q, Hx in Hz. injection Hz as <-.
      apply mem_dec in I. congruence. }
  assert (K : forall d3, (d_edges d3 = d_edges d2 /\ d_atts d3 = d_atts d2 /\ d_eps d3 = d_eps d2 /\ d_next d3 = d_next d2 /\ d_log d3 = d_log d2) ->
     (forall m, m <> n -> d_nodes d3 m = d_nodes d2 m) -> d_nodes d3 n = finished_node x -> finished d (changed d3 None) n).
  { intros d3 (Q1 & Q2 & Q3 & Q4 & Q5) Q6 Q7. constructor; cbn.
    - rewrite Q1, D2. apply (ag_edges _ _ _ _ A1).
    - rewrite Q4, D2. apply (ag_next _ _ _ _ A1).
    - intros y Hy. congruence.
    - intros m Nm. rewrite Q6, D2 by auto. cbn. rewrite hset_other by auto. apply (ag_nodes _ _ _ _ A1); auto.
    - rewrite Q2. exact Ha.
    - intros p y. cbn. rewrite Q3, D2. apply (ag_eps _ _ _ _ A1).
    - destruct (ag_log _ _ _ _ A1) as (k & Hk). split.
      + exists (k + 1)%nat. cbn. rewrite Q5, D2. cbn. rewrite Hk, repeat_app, app_assoc. reflexivity.
      + rewrite Q5, D2. cbn. rewrite Hk, <- app_assoc. intros Q. apply (f_equal (@length _)) in Q. rewrite app_length in Q. destruct k; cbn in Q; lia. }
  unfold finished_node in K. destruct (n_edges x) as [|e es] eqn:Ee; [destruct (n_direct x) eqn:Dx|].
  - eexists. split; [reflexivity|]. split; [apply changed_wf; auto|]. apply K; auto.
  - pose proof W2 as [C Fr (L1 & L2)]. pose proof (proj1 (parts d2) C) as ((T1 & T2 & T3) & E & A & P).
    destruct (tree_del_ok n (d_tree d2)) as (t & -> & Nt & It); [apply (proj2 T1); congruence|apply T1|].
    eexists. split; [reflexivity|]. split; [apply changed_wf|apply K].
    + assert (Inv : forall k y, hset (d_nodes d2) n None k = Some y -> k <> n /\ d_nodes d2 k = Some y).
      { intros k y. unfold hset. destruct (Z.eqb_spec k n); [discriminate|auto]. }
      constructor.
      * apply parts. split; [|split; [|split; [|exact P]]].
        -- split; [|split].
           ++ split; [exact Nt|]. intros k. cbn. rewrite It, (proj2 T1). unfold hset. destruct (Z.eqb_spec k n); [split; [tauto|congruence]|tauto].
           ++ cbn. intros k j y z Hy Hz. apply Inv in Hy. apply Inv in Hz. apply T2; tauto.
           ++ cbn. intros k y Hy. apply Inv in Hy. eapply T3; apply Hy.
        -- eapply EdgesOk_iff; [|exact E]. intros k e. unfold has_edge. cbn. split.
           ++ intros (y & Hy & I). apply Inv in Hy. exists y. tauto.
           ++ intros (y & Hy & I). exists y. split; auto. rewrite hset_other; auto. intros ->. rewrite H2 in Hy. injection Hy as <-. cbn in I. rewrite Ee in I. destruct I.
        -- eapply AttsOk_iff; [| |exact A]; [|reflexivity]. intros k e. unfold has_att. cbn. split.
           ++ intros (y & Hy & I). apply Inv in Hy. exists y. tauto.
           ++ intros (y & Hy & I). exists y. split; auto. rewrite hset_other; auto. intros ->. rewrite H2 in Hy. injection Hy as <-. cbn in I. destruct I.
      * intros i Hi. destruct (Fr i Hi) as (F1 & F2 & F3 & F4). repeat split; auto. cbn. unfold hset. destruct (i =? n); auto.
      * split; auto.
    + repeat split; auto.
    + intros m Nm. cbn. apply hset_other; auto.
    + cbn. apply hset_same.
  - eexists. split; [reflexivity|]. split; [apply changed_wf; auto|]. apply K; auto.
Qed.

(** removing a node does not look at the edges *)
Definition with_edges (h : heap tedge) (o : option db) : option db := option_map (fun d => set_edges d h) o.
Lemma endpoint_remove_edges d h a : endpoint_remove (set_edges d h) a = with_edges h (endpoint_remove d a).
Proof.
  unfold endpoint_remove, put_node, put_ep. cbn.
  destruct (d_atts d a) as [x|]; [|reflexivity]. destruct (d_nodes d (a_src x)) as [n|]; [|reflexivity].
  destruct (tree_del a (n_atts n)) as [l|]; [|reflexivity]. cbn. destruct (d_eps d (a_dst x)) as [p|]; [|reflexivity].
  destruct (tree_del a (p_atts p)) as [m|]; [|reflexivity]. cbn. destruct m; [|reflexivity].
  destruct (tree_del (a_dst x) (d_eptree d)); reflexivity.
Qed.
Lemma each_edges h : forall l d, each endpoint_remove l (set_edges d h) = with_edges h (each endpoint_remove l d).
Proof.
  induction l as [|a l IH]; intros d; cbn [each]; [reflexivity|]. rewrite endpoint_remove_edges.
  destruct (endpoint_remove d a) as [d'|]; [|reflexivity]. cbn. apply IH.
Qed.
Lemma node_finish_edges d h n : node_finish (set_edges d h) n = with_edges h (node_finish d n).
Proof.
  unfold node_finish. cbn [set_edges d_nodes]. destruct (d_nodes d n) as [x|]; [|reflexivity]. rewrite each_edges.
  destruct (each endpoint_remove (n_atts x) d) as [d1|]; [|reflexivity]. cbn. unfold put_node. cbn. destruct (d_nodes d1 n) as [y|]; [|reflexivity]. cbn.
  rewrite hset_same. cbn. destruct (n_edges y), (n_direct y); try reflexivity. destruct (tree_del n (d_tree d1)); reflexivity.
Qed.

(** Edges of node [n] in [R] are removed. *)
Definition cleaned (y y' : tnode) : Prop := but_edges y y' \/ (n_valid y = None /\ but_edges (nd_atts [] y) y').
Record edges_gone (d d' : db) (n : Z) (R : Z -> bool) : Prop := {
  eg_back : forall f y, d_edges d' f = Some y -> d_edges d f = Some y \/
    exists y0, d_edges d f = Some y0 /\ R f = true /\ y = ed_virt true y0;
  eg_keep : forall f y, d_edges d f = Some y -> e_virt y = false -> R f = false -> d_edges d' f = Some y;
  eg_own : forall f y, d_edges d f = Some y -> e_src y = n -> R f = false -> d_edges d' f = Some y;
  eg_gone : forall f y, R f = true -> d_edges d' f = Some y -> e_virt y = true;
  eg_node : forall x, d_nodes d n = Some x -> exists x', d_nodes d' n = Some x' /\ but_edges x x';
  eg_nodes : forall m y', m <> n -> d_nodes d' m = Some y' -> exists y, d_nodes d m = Some y /\ cleaned y y' /\
    (n_edges y' = [] -> n_valid y' <> None \/ n_direct y' = true \/ n_edges y = []);
  eg_removed : forall m y, m <> n -> d_nodes d m = Some y -> d_nodes d' m = None -> n_valid y = None /\ n_direct y = false;
  eg_atts : forall a y, d_atts d' a = Some y -> d_atts d a = Some y;
  eg_atts_gone : forall a y, d_atts d a = Some y -> d_atts d' a = None ->
    a_src y <> n /\ exists z, d_nodes d (a_src y) = Some z /\ n_valid z = None;
  eg_eps : eps_sub d d';
  eg_next : d_next d' = d_next d;
  eg_log : more_log d d' }.
Lemma cleaned_refl y : cleaned y y. Proof. left. apply but_edges_refl. Qed.
Lemma cleaned_valid y y' : cleaned y y' -> n_valid y' = n_valid y /\ n_direct y' = n_direct y /\ n_addr y' = n_addr y /\ n_ansn y' = n_ansn y.
Proof. intros [->|(_ & ->)]; auto. Qed.
Lemma cleaned_trans x y z : cleaned x y -> cleaned y z -> cleaned x z.
Proof.
  intros H1 H2. pose proof (cleaned_valid _ _ H1) as (V & _). destruct H1 as [H1|(H1 & H1')], H2 as [H2|(H2 & H2')].
  - left. eapply but_edges_trans; eauto.
  - right. split; [congruence|]. unfold but_edges in *. rewrite H2', H1. reflexivity.
  - right. split; auto. unfold but_edges in *. rewrite H2, H1'. reflexivity.
  - right. split; auto. unfold but_edges in *. rewrite H2', H1'. reflexivity.
Qed.
Lemma edges_gone_refl d n : edges_gone d d n (fun _ => false).
Proof.
  constructor; auto using eps_sub_refl, more_log_refl; try congruence.
  - intros x Hx. exists x. split; auto. apply but_edges_refl.
  - intros m y _ Hy. exists y. split; auto using cleaned_refl.
Qed.
Lemma edges_gone_ext d d' n R S : (forall a, R a = S a) -> edges_gone d d' n R -> edges_gone d d' n S.
Proof.
  intros E H. destruct H. constructor; auto.
  - intros f y Hy. destruct (eg_back0 _ _ Hy) as [Q|(y0 & Q1 & Q2 & Q3)]; [auto|]. right. exists y0. rewrite <- E. auto.
  - intros f y Hy V Q. apply eg_keep0; auto. rewrite E. auto.
  - intros f y Hy V Q. apply eg_own0; auto. rewrite E. auto.
  - intros f y Q. apply eg_gone0. rewrite E. auto.
Qed.
Lemma edges_gone_trans a b c n R S : edges_gone a b n R -> edges_gone b c n S -> edges_gone a c n (fun x => R x || S x).
Proof.
  intros A B. constructor.
  - intros f y Hy. destruct (eg_back _ _ _ _ B _ _ Hy) as [Q|(y0 & Q1 & Q2 & ->)].
    + destruct (eg_back _ _ _ _ A _ _ Q) as [Q'|(y0 & Q1 & Q2 & ->)]; auto. right. exists y0. rewrite Q2. auto.
    + right. destruct (eg_back _ _ _ _ A _ _ Q1) as [Q'|(y1 & P1 & P2 & ->)].
      * exists y0. rewrite Q2, orb_true_r. auto.
      * exists y1. rewrite P2. auto.
  - intros f y Hy V Q. apply orb_false_iff in Q. destruct Q. apply (eg_keep _ _ _ _ B); auto. apply (eg_keep _ _ _ _ A); auto.
  - intros f y Hy V Q. apply orb_false_iff in Q. destruct Q. apply (eg_own _ _ _ _ B); auto. apply (eg_own _ _ _ _ A); auto.
  - intros f y Q Hy. destruct (S f) eqn:Sf; [eapply (eg_gone _ _ _ _ B); eauto|]. rewrite orb_false_r in Q.
    destruct (eg_back _ _ _ _ B _ _ Hy) as [Q'|(y0 & Q1 & Q2 & ->)]; [|reflexivity]. eapply (eg_gone _ _ _ _ A); eauto.
  - intros x Hx. destruct (eg_node _ _ _ _ A _ Hx) as (x1 & H1 & B1). destruct (eg_node _ _ _ _ B _ H1) as (x2 & H2 & B2). exists x2. split; auto. eapply but_edges_trans; eauto.
  - intros m y' N Hy. destruct (eg_nodes _ _ _ _ B _ _ N Hy) as (y1 & H1 & C1 & P1). destruct (eg_nodes _ _ _ _ A _ _ N H1) as (y2 & H2 & C2 & P2).
    exists y2. split; auto. split; [eapply cleaned_trans; eauto|]. intros Q. destruct (P1 Q) as [P|[P|P]]; auto.
    destruct (cleaned_valid _ _ C1) as (V & D & _). rewrite V, D. auto.
  - intros m y N Hy Hn. destruct (d_nodes b m) as [z|] eqn:Hz.
    + destruct (eg_nodes _ _ _ _ A _ _ N Hz) as (y2 & H2 & C2 & _). assert (y2 = y) as -> by congruence.
      destruct (cleaned_valid _ _ C2) as (V & D & _). rewrite <- V, <- D. eapply (eg_removed _ _ _ _ B); eauto.
    + eapply (eg_removed _ _ _ _ A); eauto.
  - intros x y Hy. eapply (eg_atts _ _ _ _ A), (eg_atts _ _ _ _ B), Hy.
  - intros x y Hy Hn. destruct (d_atts b x) as [z|] eqn:Hz.
    + pose proof (eg_atts _ _ _ _ A _ _ Hz) as Q. assert (z = y) as -> by congruence.
      destruct (eg_atts_gone _ _ _ _ B _ _ Hz Hn) as (N & w & Hw & V). split; auto.
      destruct (eg_nodes _ _ _ _ A _ _ N Hw) as (w2 & Hw2 & C2 & _). exists w2. split; auto. destruct (cleaned_valid _ _ C2). congruence.
    + eapply (eg_atts_gone _ _ _ _ A); eauto.
  - eapply eps_sub_trans; [apply (eg_eps _ _ _ _ A)|apply (eg_eps _ _ _ _ B)].
  - rewrite (eg_next _ _ _ _ B). apply (eg_next _ _ _ _ A).
  - eapply more_log_trans; [apply (eg_log _ _ _ _ A)|apply (eg_log _ _ _ _ B)].
Qed.
Lemma edges_gone_changed d n : edges_gone d (changed d None) n (fun _ => false).
Proof.
  constructor; cbn; auto; try congruence.
  - intros x Hx. exists x. split; auto. apply but_edges_refl.
  - intros m y _ Hy. exists y. split; auto using cleaned_refl.
  - intros p y Hy. eauto.
  - exists 1%nat. reflexivity.
Qed.

Lemma remove_edge_ok d e x : wf d -> d_edges d e = Some x ->
  exists d', remove_edge d e true = Some d' /\ wf d' /\ edges_gone d d' (e_src x) (Z.eqb e).
Proof.
  intros W Hx. unfold remove_edge. rewrite Hx. destruct (e_virt x) eqn:Vx.
  { exists d. split; auto. split; auto. constructor; auto using eps_sub_refl, more_log_refl; try congruence.
    - intros f y Q Hy. apply Z.eqb_eq in Q. subst f. congruence.
    - intros z Hz. exists z. split; auto. apply but_edges_refl.
    - intros m y _ Hy. exists y. split; auto using cleaned_refl. }
  pose proof W as [C Fr (L1 & L2)]. pose proof (proj1 (parts d) C) as ((T1 & T2 & T3) & E & A & P).
  destruct (c_inv _ C _ _ Hx) as (y & Hy & Y1 & Y2 & Y3 & Y4). rewrite Hy. destruct (e_virt y) eqn:Vy; cbn [negb].
  2:{ unfold put_edge. rewrite Hx. eexists. split; [reflexivity|]. split.
      - constructor.
        + apply parts. split; [exact (conj T1 (conj T2 T3))|]. split; [|split; [exact A|exact P]]. cbn. eapply EdgesOk_iff; [|apply (EdgesOk_put _ _ e x _ E Hx)]; try reflexivity.
          intros _ z Hz. congruence.
        + intros i Hi. destruct (Fr i Hi) as (F1 & F2 & F3 & F4). repeat split; auto. cbn. rewrite hset_other; auto. intros ->. congruence.
        + split; auto. cbn. intros k w. unfold hset. destruct (Z.eqb_spec k e); eauto. intros [= <-]. cbn. eauto.
      - constructor; cbn; auto using more_log_refl; try congruence.
        + intros f w. unfold hset. destruct (Z.eqb_spec f e) as [->|]; auto. intros [= <-]. right. exists x. rewrite Z.eqb_refl. auto.
        + intros f w Hw V Q. rewrite hset_other; auto. intros ->. rewrite Z.eqb_refl in Q. discriminate.
        + intros f w Hw V Q. rewrite hset_other; auto. intros ->. rewrite Z.eqb_refl in Q. discriminate.
        + intros f w Q. apply Z.eqb_eq in Q. subst f. rewrite hset_same. intros [= <-]. reflexivity.
        + intros z Hz. exists z. split; auto. apply but_edges_refl.
        + intros m z _ Hz. exists z. split; auto using cleaned_refl.
        + intros p z Hz. eauto.
        + exists 0%nat. cbn. now rewrite app_nil_r. }
  destruct (c_src _ C _ _ Hx) as (sn & Hsn & Ie). destruct (c_src _ C _ _ Hy) as (dn & Hdn & Ii). rewrite Y2 in Hdn.
  pose proof (c_self _ C _ _ Hx) as Nsd. destruct (T3 _ _ Hsn) as (Nds & _). destruct (T3 _ _ Hdn) as (Ndd & _).
  rewrite Hsn. destruct (tree_del_ok e _ Ie Nds) as (l & -> & Nl & Il). unfold put_node at 1. rewrite Hsn. cbn [set_nodes d_nodes].
  rewrite hset_other by auto. rewrite Hdn. destruct (tree_del_ok (e_inv x) _ Ii Ndd) as (m & -> & Nm & Im).
  unfold put_node. cbn [set_nodes d_nodes]. rewrite hset_other by auto. rewrite Hdn.
  set (d2 := set_nodes _ _). set (h := hset (hset (d_edges d) (e_inv x) None) e None).
  assert (Hs2 : d_nodes d2 (e_src x) = Some (nd_edges l sn)) by (cbn; rewrite hset_other, hset_same; auto).
  assert (Hd2 : d_nodes d2 (e_dst x) = Some (nd_edges m dn)) by (cbn; rewrite hset_same; auto).
  assert (Ho2 : forall k, k <> e_src x -> k <> e_dst x -> d_nodes d2 k = d_nodes d k) by (intros; cbn; rewrite !hset_other; auto).
  assert (Nei : e_inv x <> e) by (intros Q; rewrite Q, Hx in Hy; injection Hy as <-; auto).
  assert (N2 : forall k z', d_nodes d2 k = Some z' -> exists z, d_nodes d k = Some z /\ but_edges z z' /\ NoDup (n_edges z') /\
     (forall f, In f (n_edges z') <-> In f (n_edges z) /\ f <> e /\ f <> e_inv x)).
  { intros k z' Hz. destruct (Z.eq_dec k (e_src x)) as [->|N1]; [|destruct (Z.eq_dec k (e_dst x)) as [->|N3]].
    - assert (z' = nd_edges l sn) as -> by congruence. exists sn. split; auto. split; [reflexivity|]. split; auto. cbn. intros f. rewrite Il. split; [|tauto].
      intros (Q1 & Q2). repeat split; auto. intros ->. destruct (c_hooked _ C (e_src x) (e_inv x)) as (w & Hw & Q); [exists sn; auto|]. rewrite Hy in Hw. injection Hw as <-. congruence.
    - assert (z' = nd_edges m dn) as -> by congruence. exists dn. split; auto. split; [reflexivity|]. split; auto. cbn. intros f. rewrite Im. split; [|tauto].
      intros (Q1 & Q2). repeat split; auto. intros ->. destruct (c_hooked _ C (e_dst x) e) as (w & Hw & Q); [exists dn; auto|]. rewrite Hx in Hw. injection Hw as <-. congruence.
    - rewrite Ho2 in Hz by auto. exists z'. split; auto. split; [apply but_edges_refl|]. split; [apply (T3 _ _ Hz)|]. intros f. split; [|tauto]. intros I. split; auto.
      destruct (c_hooked _ C k f) as (w & Hw & Q); [exists z'; auto|]. split; intros ->; [rewrite Hx in Hw; injection Hw as <-|rewrite Hy in Hw; injection Hw as <-]; congruence. }
  assert (F2 : forall k z, d_nodes d k = Some z -> exists z', d_nodes d2 k = Some z').
  { intros k z Hz. destruct (Z.eq_dec k (e_src x)) as [->|N1]; [eauto|]. destruct (Z.eq_dec k (e_dst x)) as [->|N3]; [eauto|]. rewrite Ho2; eauto. }
  assert (W2 : wf (set_edges d2 h)).
  { constructor.
    - apply parts. split; [|split; [|split; [|exact P]]].
      + split; [|split].
        * split; [apply T1|]. intros k. change (d_tree (set_edges d2 h)) with (d_tree d). change (d_nodes (set_edges d2 h)) with (d_nodes d2). rewrite (proj2 T1).
          split; intros Q.
          -- destruct (d_nodes d k) eqn:Hk; [|congruence]. destruct (F2 _ _ Hk). congruence.
          -- destruct (d_nodes d2 k) eqn:Hk; [|congruence]. destruct (N2 _ _ Hk) as (z & Hz & _). congruence.
        * intros k j z w Hz Hw Q. destruct (N2 _ _ Hz) as (z0 & Hz0 & B1 & _). destruct (N2 _ _ Hw) as (w0 & Hw0 & B2 & _). eapply T2; eauto.
          rewrite B1, B2 in Q. exact Q.
        * intros k z Hz. destruct (N2 _ _ Hz) as (z0 & Hz0 & B1 & Nz & _). split; auto. rewrite B1. apply (T3 _ _ Hz0).
      + cbn. eapply EdgesOk_iff; [|apply (EdgesOk_del _ _ e x E Hx)]. intros k f. unfold has_edge. split.
        * intros (z & Hz & I). destruct (N2 _ _ Hz) as (z0 & Hz0 & _ & _ & Q). apply Q in I. split; [exists z0|]; tauto.
        * intros ((z & Hz & I) & Q). destruct (F2 _ _ Hz) as (z' & Hz'). exists z'. split; auto. destruct (N2 _ _ Hz') as (z0 & Hz0 & _ & _ & Q').
          apply Q'. assert (z0 = z) as -> by congruence. tauto.
      + eapply AttsOk_iff; [| |exact A]; [|reflexivity]. intros k f. unfold has_att. split.
        * intros (z & Hz & I). destruct (N2 _ _ Hz) as (z0 & Hz0 & B & _). exists z0. split; auto. rewrite B in I. exact I.
        * intros (z & Hz & I). destruct (F2 _ _ Hz) as (z' & Hz'). exists z'. split; auto. destruct (N2 _ _ Hz') as (z0 & Hz0 & B & _). rewrite B. cbn. congruence.
    - intros i Hi. destruct (Fr i Hi) as (Q1 & Q2 & Q3 & Q4). split; [|split; [|split]]; auto.
      + cbn [set_edges d_nodes]. destruct (d_nodes d2 i) eqn:Hk; auto. destruct (N2 _ _ Hk) as (z & Hz & _). congruence.
      + cbn. unfold h, hset. destruct (i =? e); auto. destruct (i =? e_inv x); auto.
    - split; auto. cbn. intros f w. unfold h, hset. destruct (f =? e); [discriminate|]. destruct (f =? e_inv x); [discriminate|]. apply L2. }
  assert (G2 : forall f w, h f = Some w -> d_edges d f = Some w /\ f <> e /\ f <> e_inv x).
  { intros f w. unfold h, hset. destruct (Z.eqb_spec f e); [discriminate|]. destruct (Z.eqb_spec f (e_inv x)); [discriminate|]. auto. }
  assert (G3 : forall f w, d_edges d f = Some w -> e_virt w = false -> (e =? f) = false -> h f = Some w).
  { intros f w Hw V Q. unfold h. rewrite !hset_other; auto; intros ->; [congruence|]. rewrite Z.eqb_refl in Q. discriminate. }
  assert (G4 : forall f w, d_edges d f = Some w -> e_src w = e_src x -> (e =? f) = false -> h f = Some w).
  { intros f w Hw V Q. unfold h. rewrite !hset_other; auto; intros ->; [congruence|]. rewrite Z.eqb_refl in Q. discriminate. }
  assert (Done : forall d3, d_nodes d3 = d_nodes d2 -> (m = [] -> n_valid dn <> None) ->
     edges_gone d (set_edges d2 h) (e_src x) (Z.eqb e)).
  { intros d3 _ Hm. constructor; cbn [set_edges d_edges d_nodes d_atts d_eps d_next].
    - intros f w Hw. left. apply G2; auto.
    - exact G3.
    - exact G4.
    - intros f w Q Hw. apply Z.eqb_eq in Q. destruct (G2 _ _ Hw) as (_ & Q' & _). congruence.
    - intros z Hz. destruct (F2 _ _ Hz) as (z' & Hz'). exists z'. split; auto. destruct (N2 _ _ Hz') as (z0 & Hz0 & B & _). congruence.
    - intros k z' Nk Hz. destruct (N2 _ _ Hz) as (z & Hz0 & B & _). exists z. split; auto. split; [left; auto|].
      intros Q. destruct (Z.eq_dec k (e_dst x)) as [->|]; [|rewrite Ho2 in Hz by auto; right; right; congruence].
      left. assert (z' = nd_edges m dn) as -> by congruence. cbn in Q |- *. auto.
    - intros k z Nk Hz Hz'. destruct (F2 _ _ Hz). congruence.
    - auto.
    - cbn. congruence.
    - intros p w Hw. eauto.
    - reflexivity.
    - exists 0%nat. cbn. now rewrite app_nil_r. }
  destruct m as [|i0 m]; [destruct (n_valid dn) eqn:Vd|].
  - eexists. split; [reflexivity|]. split; [exact W2|]. apply (Done d2); auto. congruence.
  - destruct (node_finish_ok _ (e_dst x) (nd_edges [] dn) W2 Hd2) as (d3 & E3 & W3 & Fi). rewrite node_finish_edges in E3.
    destruct (node_finish d2 (e_dst x)) as [d3'|] eqn:E3'; [|discriminate]. cbn in E3. injection E3 as E3.
    eexists. split; [reflexivity|].
    assert (d_edges d3' = d_edges d) as Q3.
    { assert (set_edges d2 (d_edges d2) = d2) as Q by reflexivity. 
      pose proof (node_finish_edges d2 (d_edges d) (e_dst x)) as Q'. change (set_edges d2 (d_edges d)) with d2 in Q'. rewrite E3' in Q'. cbn in Q'. injection Q' as Q'. rewrite Q'. reflexivity. }
    rewrite Q3. change (set_edges d3' (hset (hset (d_edges d) (e_inv x) None) e None)) with (set_edges d3' h). rewrite E3. split; auto.
    assert (Hdn3 : d_nodes d3 (e_dst x) = finished_node (nd_edges [] dn)) by (apply (fi_node _ _ _ Fi); exact Hd2).
    assert (Ho3 : forall k, k <> e_dst x -> d_nodes d3 k = d_nodes d2 k) by (intros k Nk; apply (fi_nodes _ _ _ Fi); auto).
    constructor.
    + intros f w Hw. rewrite (fi_edges _ _ _ Fi) in Hw. left. apply G2; auto.
    + intros f w. rewrite (fi_edges _ _ _ Fi). apply G3.
    + intros f w. rewrite (fi_edges _ _ _ Fi). apply G4.
    + intros f w Q Hw. rewrite (fi_edges _ _ _ Fi) in Hw. apply Z.eqb_eq in Q. destruct (G2 _ _ Hw) as (_ & Q' & _). congruence.
    + intros z Hz. destruct (F2 _ _ Hz) as (z' & Hz'). exists z'. rewrite Ho3 by auto. split; auto. destruct (N2 _ _ Hz') as (z0 & Hz0 & B & _). congruence.
    + intros k z' Nk Hz. destruct (Z.eq_dec k (e_dst x)) as [->|Nk'].
      * rewrite Hdn3 in Hz. unfold finished_node in Hz. cbn in Hz. destruct (n_direct dn) eqn:Dd; [|discriminate]. injection Hz as <-.
        exists dn. split; auto. split; [right; split; auto; unfold but_edges; destruct dn; cbn in *; subst; reflexivity|]. cbn. auto.
      * rewrite Ho3 in Hz by auto. destruct (N2 _ _ Hz) as (z & Hz0 & B & _). exists z. split; auto. split; [left; auto|].
        intros Q. rewrite Ho2 in Hz by auto. right; right. congruence.
    + intros k z Nk Hz Hz'. destruct (Z.eq_dec k (e_dst x)) as [->|Nk'].
      * rewrite Hdn3 in Hz'. unfold finished_node in Hz'. cbn in Hz'. destruct (n_direct dn) eqn:Dd; [discriminate|]. assert (z = dn) as -> by congruence. auto.
      * rewrite Ho3 in Hz' by auto. destruct (F2 _ _ Hz). congruence.
    + intros a w. rewrite (fi_atts _ _ _ Fi). cbn. destruct (d_atts d a) as [v|]; [|discriminate]. destruct (a_src v =? e_dst x); [discriminate|auto].
    + intros a w Hw. rewrite (fi_atts _ _ _ Fi). cbn. rewrite Hw. destruct (Z.eqb_spec (a_src w) (e_dst x)) as [Q|]; [|discriminate]. intros _. rewrite Q. split; auto. eauto.
    + intros p w Hw. destruct (fi_eps _ _ _ Fi _ _ Hw) as (v & Hv & Q). eauto.
    + rewrite (fi_next _ _ _ Fi). reflexivity.
    + destruct (fi_log _ _ _ Fi) as ((k & Hk) & _). exists k. rewrite Hk. reflexivity.
  - eexists. split; [reflexivity|]. split; [exact W2|]. apply (Done d2); auto. congruence.
Qed.
Lemma edge_remove_ok d e x : wf d -> d_edges d e = Some x ->
  exists d', edge_remove d e = Some d' /\ wf d' /\ edges_gone d d' (e_src x) (Z.eqb e) /\ longer d d'.
Proof.
  intros W Hx. destruct (remove_edge_ok (changed d None) e x (changed_wf _ _ W) Hx) as (d' & E & W' & G).
  exists d'. split; auto. split; auto. split.
  - eapply edges_gone_ext; [|eapply edges_gone_trans; [apply edges_gone_changed|exact G]]. reflexivity.
  - destruct (eg_log _ _ _ _ G) as (k & Hk). unfold longer. rewrite Hk. cbn. rewrite !app_length. cbn. lia.
Qed.

(** a loop that removes the edges of node [n] for which [R] holds *)
Lemma each_edge (f : db -> Z -> option db) n (R : Z -> bool) (G : db -> Prop) : forall l d, wf d -> G d -> NoDup l ->
  (forall a, In a l -> exists x, d_edges d a = Some x /\ e_src x = n) ->
  (forall d a x, wf d -> G d -> In a l -> d_edges d a = Some x -> e_src x = n -> f d a = if R a then edge_remove d a else Some d) ->
  (forall d d' S, G d -> edges_gone d d' n S -> G d') ->
  exists d', each f l d = Some d' /\ wf d' /\ G d' /\ edges_gone d d' n (fun a => existsb (Z.eqb a) l && R a) /\
    (forall a, In a l -> R a = true -> longer d d').
Proof.
  induction l as [|a l IH]; intros d W Gd ND Hl Hf HG; cbn [each].
  - exists d. split; auto. split; auto. split; auto. split; [|intros a []]. apply (edges_gone_ext d d n (fun _ => false)); auto. apply edges_gone_refl.
  - destruct (Hl a (or_introl eq_refl)) as (x & Hx & Sx). rewrite (Hf d a x W Gd (or_introl eq_refl) Hx Sx). inversion ND as [|? ? NI ND']; subst.
    assert (K : exists d1, (if R a then edge_remove d a else Some d) = Some d1 /\ wf d1 /\ G d1 /\ edges_gone d d1 (e_src x) (fun b => Z.eqb a b && R a) /\ (R a = true -> longer d d1)).
    { destruct (R a) eqn:Ra.
      - destruct (edge_remove_ok d a x W Hx) as (d1 & E1 & W1 & A1 & Lg). exists d1. split; auto. split; auto. split; [eapply HG; eauto|].
        split; [eapply edges_gone_ext; [|exact A1]; intros b; cbn; now rewrite andb_true_r|]. intros _. exact Lg.
      - exists d. split; auto. split; auto. split; auto. split; [|discriminate]. eapply edges_gone_ext; [|apply edges_gone_refl]. intros b. cbn. now rewrite andb_false_r. }
    destruct K as (d1 & -> & W1 & G1 & A1 & Lg1).
    destruct (IH d1 W1 G1 ND') as (d2 & E2 & W2 & G2 & A2 & Lg2).
    + intros b I. destruct (Hl b (or_intror I)) as (y & Hy & Sy). exists y. split; auto. apply (eg_own _ _ _ _ A1); auto.
      destruct (Z.eqb_spec a b); [congruence|auto].
    + intros d0 b y W0 G0 I Hy Sy. apply (Hf d0 b y W0 G0 (or_intror I) Hy Sy).
    + exact HG.
    + exists d2. split; auto. split; auto. split; auto.
      split; [|intros b [<-|I] Rb; [specialize (Lg1 Rb); pose proof (more_longer _ _ (eg_log _ _ _ _ A2)); unfold longer in *; lia
               |specialize (Lg2 b I Rb); pose proof (more_longer _ _ (eg_log _ _ _ _ A1)); unfold longer in *; lia]].
      eapply edges_gone_ext; [|eapply edges_gone_trans; [exact A1|exact A2]].
      intros b. cbn. rewrite (Z.eqb_sym b a). destruct (Z.eqb_spec a b) as [<-|]; cbn; [|reflexivity].
      destruct (R a); cbn; [reflexivity|]. now rewrite andb_false_r.
Qed.

Lemma node_remove_ok d n x : wf d -> d_nodes d n = Some x ->
  exists d1 d', node_remove d n = Some d' /\ wf d1 /\ wf d' /\ edges_gone d d1 n (fun a => existsb (Z.eqb a) (n_edges x)) /\ finished d1 d' n.
Proof.
  intros W Hx. unfold node_remove. rewrite Hx. destruct (c_nodup _ (wf_c _ W) _ _ Hx) as (ND & _).
  destruct (each_edge edge_remove n (fun _ => true) (fun _ => True) (n_edges x) d W Logic.I ND) as (d1 & E1 & W1 & _ & A1 & _); auto.
  { intros a I. apply (c_hooked _ (wf_c _ W)). exists x; auto. }
  rewrite E1. destruct (eg_node _ _ _ _ A1 _ Hx) as (x1 & Hx1 & _).
  destruct (node_finish_ok d1 n x1 W1 Hx1) as (d' & E2 & W2 & Fi). exists d1, d'. split; auto. split; auto. split; auto. split; auto.
  eapply edges_gone_ext; [|exact A1]. intros a. cbn. apply andb_true_r.
Qed.

(** ** Adding attachments *)
Lemma src_keys d n x : wf d -> d_nodes d n = Some x -> forall a, In a (n_atts x) ->
  exists y z, d_atts d a = Some y /\ a_src y = n /\ d_eps d (a_dst y) = Some z /\ src_key d a = Some (p_key z).
Proof.
  intros W Hx a I. destruct (c_att_n _ (wf_c _ W) n a) as (y & Hy & Sy); [exists x; auto|].
  destruct (c_att _ (wf_c _ W) _ _ Hy) as (_ & z & Hz & _). exists y, z. repeat split; auto. unfold src_key, ep_key. now rewrite Hy, Hz.
Qed.
Lemma end_keys d p x : wf d -> d_eps d p = Some x -> forall a, In a (p_atts x) ->
  exists y z, d_atts d a = Some y /\ a_dst y = p /\ d_nodes d (a_src y) = Some z /\ end_key d a = Some (n_addr z).
Proof.
  intros W Hx a I. destruct (c_att_p _ (wf_c _ W) p a) as (y & Hy & Sy); [exists x; auto|].
  destruct (c_att _ (wf_c _ W) _ _ Hy) as ((z & Hz & _) & _). exists y, z. repeat split; auto. unfold end_key, node_key. now rewrite Hy, Hz.
Qed.

Definition but_atts (x y : tnode) : Prop := y = nd_atts (n_atts y) x.
(** What adding an attachment does. *)
Record att_added (d d' : db) (n key a : Z) : Prop := {
  aa_att : exists x p, d_atts d' a = Some x /\ a_src x = n /\ d_eps d' (a_dst x) = Some p /\ p_key p = key /\
    (d_atts d a = Some x \/ (d_atts d a = None /\ a_cost x = no_cost /\ a_dist x = no_dist));
  aa_atts : forall b, b <> a -> d_atts d' b = d_atts d b;
  aa_edges : d_edges d' = d_edges d;
  aa_tree : d_tree d' = d_tree d;
  aa_node : forall x, d_nodes d n = Some x -> exists x', d_nodes d' n = Some x' /\ but_atts x x';
  aa_nodes : forall m, m <> n -> d_nodes d' m = d_nodes d m;
  aa_eps : forall p y, d_eps d p = Some y -> exists y', d_eps d' p = Some y' /\ p_key y' = p_key y;
  aa_rest : d_log d' = d_log d /\ d_next d <= d_next d' }.

Lemma endpoint_add_ok d n x key mesh : wf d -> d_nodes d n = Some x ->
  exists d' a, endpoint_add d n key mesh = Some (d', a) /\ wf d' /\ att_added d d' n key a.
Proof.
  intros W Hx. unfold endpoint_add. rewrite Hx.
  destruct (tree_find_ok (src_key d) key (n_atts x)) as (f & Ef & Pf).
  { intros a I. destruct (src_keys d n x W Hx a I) as (y & z & _ & _ & _ & K). eauto. }
  rewrite Ef. destruct f as [a|].
  { destruct Pf as (I & K). destruct (src_keys d n x W Hx a I) as (y & z & Hy & Sy & Hz & K'). exists d, a. split; auto. split; auto. constructor; auto.
    - exists y, z. repeat split; auto. congruence.
    - intros w Hw. exists w. split; auto. destruct w; reflexivity.
    - intros p w Hw. eauto.
    - split; auto. lia. }
  set (a := d_next d).
  pose proof W as [C Fr (L1 & L2)]. pose proof (proj1 (parts d) C) as ((T1 & T2 & T3) & E & A & (P1 & P2 & P3)).
  assert (KE : forall p, In p (d_eptree d) -> exists y, d_eps d p = Some y).
  { intros p I. apply P1 in I. destruct (d_eps d p); [eauto|congruence]. }
  (* the endpoint *)
  assert (Hp : exists d1 p px, (do g <- tree_find (ep_key (bump d 1)) (d_eptree (bump d 1)) key;
      (match g with
       | Some p => Some (bump d 1, p)
       | None => let p := d_next (bump d 1) in do t <- tree_ins (ep_key (bump d 1)) p key (d_eptree (bump d 1)); do t' <- t;
                 Some (bump (set_eps (set_eptree (bump d 1) t') (hset (d_eps (bump d 1)) p (Some (mkTP key mesh n [])))) 1, p)
       end)) = Some (d1, p) /\
      d_nodes d1 = d_nodes d /\ d_tree d1 = d_tree d /\ d_edges d1 = d_edges d /\ d_atts d1 = d_atts d /\ d_log d1 = d_log d /\ d_next d < d_next d1 /\
      d_eps d1 p = Some px /\ p_key px = key /\ NoDup (d_eptree d1) /\ (forall q, In q (d_eptree d1) <-> d_eps d1 q <> None) /\
      (forall q, q <> p -> d_eps d1 q = d_eps d q) /\ p < d_next d1 /\
      (d_eps d p = Some px \/ (d_eps d p = None /\ p_atts px = [] /\ forall q y, d_eps d q = Some y -> p_key y <> key))).
  { destruct (tree_find_ok (ep_key (bump d 1)) key (d_eptree d)) as (g & Eg & Pg).
    { intros p I. destruct (KE p I) as (y & Hy). exists (p_key y). unfold ep_key. cbn. now rewrite Hy. }
    change (d_eptree (bump d 1)) with (d_eptree d). rewrite Eg. destruct g as [p|].
    - destruct Pg as (I & K). destruct (KE p I) as (px & Hpx). eexists _, p, px. split; [reflexivity|]. cbn. unfold ep_key in K. cbn in K. rewrite Hpx in K. injection K as K.
      repeat split; auto; try lia; try apply P1.
      destruct (Z.lt_ge_cases p (d_next d)); [lia|]. destruct (Fr p ltac:(auto)) as (_ & _ & _ & Q). congruence.
    - cbv zeta. set (p := d_next (bump d 1)). assert (Ep : p = d_next d + 1) by reflexivity. clearbody p.
      assert (KI : forall q, In q (d_eptree d) -> exists kx, ep_key (bump d 1) q = Some kx /\ kx <> key).
      { intros q I. destruct (KE q I) as (y & Hy). exists (p_key y). unfold ep_key. cbn. rewrite Hy. split; auto. intros Q. apply (Pg q I). unfold ep_key. cbn. rewrite Hy. congruence. }
      destruct (tree_ins_ok (ep_key (bump d 1)) p key (d_eptree d) KI) as (t & Et & Pt). rewrite Et.
      eexists _, p, (mkTP key mesh n []). split; [reflexivity|].
      assert (Fp : d_eps d p = None) by (apply Fr; lia).
      cbn. rewrite hset_same. repeat split; auto; try lia.
      + apply (perm_NoDup _ _ _ Pt); [|apply P1]. intros I. apply P1 in I. congruence.
      + intros I. apply (perm_In _ _ _ q Pt) in I. unfold hset. destruct (Z.eqb_spec q p); [congruence|]. destruct I as [I|I]; [contradiction|]. apply P1; auto.
      + intros Q. apply (perm_In _ _ _ q Pt). unfold hset in Q. destruct (Z.eqb_spec q p); auto. right. apply P1; auto.
      + intros q Nq. apply hset_other; auto.
      + right. split; auto. split; auto. intros q y Hy Q. apply (Pg q); [apply P1; congruence|]. unfold ep_key. cbn. rewrite Hy. congruence. }
  destruct Hp as (d1 & p & px & Ed & D1 & D2 & D3 & D4 & D5 & D6 & Hpx & Kpx & D7 & D8 & D9 & D10 & Old).
  destruct (tree_find (ep_key (bump d 1)) (d_eptree (bump d 1)) key) as [g|]; [|discriminate]. cbv zeta in Ed |- *.
  rewrite Ed. rewrite Hpx.
  set (ya := mkTA n p no_cost no_dist 0). set (d2 := set_atts d1 (hset (d_atts d1) a (Some ya))).
  destruct (Fr a ltac:(unfold a; lia)) as (Fa1 & Fa2 & Fa3 & Fa4).
  assert (Sp : forall q y, d_eps d q = Some y -> exists y', d_eps d1 q = Some y' /\ p_key y' = p_key y /\ p_atts y' = p_atts y).
  { intros q y Hy. destruct (Z.eq_dec q p) as [->|]; [|exists y; rewrite D9; auto]. exists px. split; auto. destruct Old as [Q|(Q & _)]; [|congruence]. assert (y = px) by congruence. subst. auto. }
  assert (NoDst : forall b z, d_atts d b = Some z -> ~ (a_src z = n /\ a_dst z = p)).
  { intros b z Hz (Q1 & Q2). destruct (c_att _ C _ _ Hz) as ((y & Hy & I) & (q & Hq & _)). rewrite Q1, Hx in Hy. injection Hy as <-. apply (Pf b I).
    unfold src_key, ep_key. rewrite Hz, Hq. rewrite Q2 in Hq. destruct Old as [Q|(Q & _)]; congruence. }
  assert (K1 : forall b, In b (n_atts x) -> exists kx, src_key d2 b = Some kx /\ kx <> p_key px).
  { intros b I. destruct (src_keys d n x W Hx b I) as (y & z & Hy & Sy & Hz & K). destruct (Sp _ _ Hz) as (z' & Hz' & Q1 & _). exists (p_key z). split.
    - unfold src_key, ep_key. cbn. rewrite hset_other by (intros ->; congruence). rewrite D4, Hy, Hz'. congruence.
    - rewrite Kpx. intros Q. apply (Pf b I). congruence. }
  destruct (tree_ins_ok (src_key d2) a (p_key px) (n_atts x) K1) as (t & Et & Pt). rewrite Et.
  unfold put_node at 1. replace (d_nodes d2 n) with (Some x) by (cbn; rewrite D1; auto).
  set (d3 := set_nodes d2 (hset (d_nodes d2) n (Some (nd_atts t x)))).
  assert (KP : forall b, In b (p_atts px) -> exists y z, d_atts d b = Some y /\ a_dst y = p /\ d_nodes d (a_src y) = Some z /\ end_key d b = Some (n_addr z)).
  { intros b I. destruct Old as [Q|(_ & Q & _)]; [|rewrite Q in I; destruct I]. apply (end_keys d p px W Q b I). }
  assert (K2 : forall b, In b (p_atts px) -> exists kx, end_key d3 b = Some kx /\ kx <> n_addr x).
  { intros b I. destruct (KP b I) as (y & z & Hy & Sy & Hz & K). exists (n_addr z).
    assert (a_src y <> n) as N by (intros Q; apply (NoDst _ _ Hy); auto). split.
    - unfold end_key, node_key. cbn. rewrite hset_other by (intros ->; congruence). rewrite D4, Hy. rewrite hset_other by auto. rewrite D1, Hz. reflexivity.
    - intros Q. apply N. eapply T2; eauto. }
  destruct (tree_ins_ok (end_key d3) a (n_addr x) (p_atts px) K2) as (u & Eu & Pu). rewrite Eu.
  unfold put_ep. replace (d_eps d3 p) with (Some px) by (cbn; auto). cbn [set_eps d_eps]. rewrite hset_same.
  eexists _, a. split; [reflexivity|]. set (d' := set_eps _ _).
  set (p' := pt_orig n (pt_atts u px)).
  assert (Hp' : forall q, d_eps d' q = if q =? p then Some p' else d_eps d q).
  { intros q. cbn. unfold hset. destruct (Z.eqb_spec q p); auto. }
  assert (Hn' : forall k, d_nodes d' k = if k =? n then Some (nd_atts t x) else d_nodes d k).
  { intros k. cbn. rewrite D1. unfold hset. destruct (Z.eqb_spec k n); auto. }
  assert (Ha' : d_atts d' = hset (d_atts d) a (Some ya)) by (cbn; rewrite D4; auto).
  assert (Nat : ~ In a (n_atts x)).
  { intros I. destruct (src_keys d n x W Hx _ I) as (y & z & Hy & _). congruence. }
  assert (Nap : ~ In a (p_atts px)).
  { intros I. destruct (KP a I) as (y & z & Hy & _). congruence. }
  assert (NDp : NoDup (p_atts px)).
  { destruct Old as [Q|(_ & Q & _)]; [apply (P3 _ _ Q)|rewrite Q; constructor]. }
  split.
  - constructor.
    + apply parts. split; [|split; [|split]].
      * split; [|split].
        -- split; [cbn; rewrite D2; apply T1|]. intros k. change (d_tree d') with (d_tree d1). rewrite D2, (proj2 T1), Hn'. destruct (Z.eqb_spec k n) as [->|]; [split; congruence|tauto].
        -- intros k j y z. rewrite !Hn'. intros Hy Hz Q. destruct (Z.eqb_spec k n) as [->|]; destruct (Z.eqb_spec j n) as [->|]; auto.
           ++ injection Hy as <-. eapply T2; eauto.
           ++ injection Hz as <-. eapply T2; eauto.
           ++ eapply T2; eauto.
        -- intros k y. rewrite Hn'. destruct (Z.eqb_spec k n) as [->|]; [|apply T3]. intros [= <-]. cbn. destruct (T3 _ _ Hx) as (Q1 & Q2). split; auto.
           apply (perm_NoDup _ _ _ Pt); auto.
      * change (d_edges d') with (d_edges d1). rewrite D3. eapply EdgesOk_iff; [|exact E]. intros k e. unfold has_edge. split.
        -- intros (y & Hy & I). rewrite Hn' in Hy. destruct (Z.eqb_spec k n) as [->|]; [injection Hy as <-; eauto|eauto].
        -- intros (y & Hy & I). rewrite Hn'. destruct (Z.eqb_spec k n) as [->|]; [|eauto]. exists (nd_atts t x). split; auto. cbn. congruence.
      * rewrite Ha'. eapply AttsOk_iff; [| |apply (AttsOk_add _ _ _ a ya A Fa3)]; [| |exact NoDst]; cbn [a_src a_dst ya].
        -- intros k b. unfold has_att. split.
           ++ intros (y & Hy & I). rewrite Hn' in Hy. destruct (Z.eqb_spec k n) as [->|]; [|eauto]. injection Hy as <-. cbn in I. apply (perm_In _ _ _ b Pt) in I. destruct I; eauto.
           ++ rewrite Hn'. intros [(y & Hy & I)|(-> & ->)].
              ** destruct (Z.eqb_spec k n) as [->|]; [|eauto]. exists (nd_atts t x). split; auto. cbn. apply (perm_In _ _ _ b Pt). right. congruence.
              ** rewrite Z.eqb_refl. exists (nd_atts t x). split; auto. cbn. apply (perm_In _ _ _ a Pt). auto.
        -- intros k b. unfold ep_att. split.
           ++ intros (y & Hy & I). rewrite Hp' in Hy. destruct (Z.eqb_spec k p) as [->|]; [|eauto]. injection Hy as <-. cbn in I. apply (perm_In _ _ _ b Pu) in I. destruct I as [I|I]; [auto|].
              left. destruct Old as [Q|(_ & Q & _)]; [eauto|rewrite Q in I; destruct I].
           ++ rewrite Hp'. intros [(y & Hy & I)|(-> & ->)].
              ** destruct (Z.eqb_spec k p) as [->|]; [|eauto]. exists p'. split; auto. cbn. apply (perm_In _ _ _ b Pu). right. destruct Old as [Q|(Q & _)]; congruence.
              ** rewrite Z.eqb_refl. exists p'. split; auto. cbn. apply (perm_In _ _ _ a Pu). auto.
      * assert (Tp : forall q y, d_eps d' q = Some y -> (q = p /\ y = p') \/ (q <> p /\ d_eps d q = Some y)).
        { intros q y. rewrite Hp'. destruct (Z.eqb_spec q p); [intros [= <-]; auto|auto]. }
        split; [|split].
        -- split; [exact D7|]. intros q. change (d_eptree d') with (d_eptree d1). rewrite D8, Hp'. destruct (Z.eqb_spec q p) as [->|]; [split; congruence|]. rewrite D9; tauto.
        -- intros q r y z Hy Hz Q. destruct (Tp _ _ Hy) as [(-> & ->)|(N1 & Hy')]; destruct (Tp _ _ Hz) as [(-> & ->)|(N2 & Hz')]; auto.
           ++ cbn in Q. destruct Old as [O|(_ & _ & O)]; [eapply P2; eauto|]. exfalso. eapply O; eauto. congruence.
           ++ cbn in Q. destruct Old as [O|(_ & _ & O)]; [eapply P2; eauto|]. exfalso. eapply O; eauto. congruence.
           ++ eapply P2; eauto.
        -- intros q y Hy. destruct (Tp _ _ Hy) as [(-> & ->)|(N1 & Hy')]; [|eauto]. cbn. split; [apply (perm_NoDup _ _ _ Pu); auto|].
           intros Q. rewrite Q in Pu. apply Permutation_nil in Pu. discriminate.
    + intros i Hi. change (d_next d') with (d_next d1) in Hi. destruct (Fr i ltac:(lia)) as (F1 & F2 & F3 & F4). split; [|split; [|split]].
      * rewrite Hn'. destruct (Z.eqb_spec i n) as [->|]; [congruence|auto].
      * change (d_edges d') with (d_edges d1). congruence.
      * rewrite Ha', hset_other; auto. unfold a; lia.
      * rewrite Hp'. destruct (Z.eqb_spec i p) as [->|]; [lia|auto].
    + split; [|change (d_edges d') with (d_edges d1); rewrite D3; auto]. rewrite Ha'. intros b y. unfold hset. destruct (b =? a); [intros [= <-]; split; reflexivity|apply L1].
  - constructor.
    + exists ya, p'. rewrite Ha', hset_same. repeat split; auto. rewrite Hp'. cbn. now rewrite Z.eqb_refl.
    + intros b Nb. rewrite Ha', hset_other; auto.
    + change (d_edges d') with (d_edges d1). auto.
    + change (d_tree d') with (d_tree d1). auto.
    + intros y Hy. rewrite Hn', Z.eqb_refl. assert (y = x) as -> by congruence. eexists. split; [reflexivity|]. reflexivity.
    + intros m Nm. rewrite Hn'. destruct (Z.eqb_spec m n); [contradiction|auto].
    + intros q y Hy. rewrite Hp'. destruct (Z.eqb_spec q p) as [->|]; [|eauto]. exists p'. split; auto. cbn. destruct Old as [O|(O & _)]; congruence.
    + split; [exact D5|]. change (d_next d') with (d_next d1). lia.
Qed.
