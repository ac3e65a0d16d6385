(** Proofs about the NHDP database: references stay valid. *)
From Verif Require Import Base BufLemmas NhdpModel NhdpSpec.

(** ** Lists *)
Lemma addr_eqb_eq a b : addr_eqb a b = true <-> a = b.
Proof.
  unfold addr_eqb. destruct a as [a1 a2], b as [b1 b2]; cbn. rewrite andb_true_iff, !Z.eqb_eq.
  split; [intros [-> ->]; auto|intros H; injection H; auto].
Qed.
Lemma addr_eqb_refl a : addr_eqb a a = true.
Proof. now apply addr_eqb_eq. Qed.
Lemma addr_eqb_neq a b : addr_eqb a b = false <-> a <> b.
Proof. rewrite <- addr_eqb_eq. destruct (addr_eqb a b); split; congruence. Qed.
Lemma addr_eq_dec (a b : addr) : {a = b} + {a <> b}.
Proof. destruct (addr_eqb a b) eqn:E; [left; now apply addr_eqb_eq|right; now apply addr_eqb_neq]. Qed.

Lemma map_upd {A B} (g : A -> B) p f (l : list A) : (forall x, g (f x) = g x) -> map g (upd p f l) = map g l.
Proof. intros H. unfold upd. rewrite map_map. apply map_ext. intros x. destruct (p x); auto. Qed.
Lemma in_upd {A} p f (l : list A) x : In x (upd p f l) <-> exists y, In y l /\ x = if p y then f y else y.
Proof. unfold upd. rewrite in_map_iff. split; intros (y & H1 & H2); exists y; auto. Qed.
Lemma in_del {A} p (l : list A) x : In x (del p l) <-> In x l /\ p x = false.
Proof. unfold del. rewrite filter_In, negb_true_iff. tauto. Qed.
Lemma map_del {A B} (g : A -> B) p q (l : list A) : (forall x, p x = q (g x)) -> map g (del p l) = del q (map g l).
Proof.
  intros H. unfold del. induction l as [|x l IH]; cbn; auto. rewrite H. destruct (q (g x)); cbn; rewrite IH; auto.
Qed.
Lemma NoDup_del {A} p (l : list A) : NoDup l -> NoDup (del p l).
Proof. apply NoDup_filter. Qed.
Lemma NoDup_map_del {A B} (g : A -> B) p (l : list A) : NoDup (map g l) -> NoDup (map g (del p l)).
Proof.
  unfold del. induction l as [|x l IH]; cbn; auto. intros H. inversion H as [|? ? H1 H2]; subst.
  destruct (negb (p x)); cbn; auto. constructor; auto. intros C. apply H1.
  apply in_map_iff in C. destruct C as (y & <- & C). apply filter_In in C. apply in_map. tauto.
Qed.
Lemma find_some_iff {A} (g : A -> Z) (i : Z) (l : list A) : In i (map g l) <-> exists x, find (fun y => g y =? i) l = Some x.
Proof.
  induction l as [|y l IH]; cbn; [split; [tauto|intros (x & H); discriminate]|].
  destruct (g y =? i) eqn:E.
  - apply Z.eqb_eq in E. split; eauto.
  - apply Z.eqb_neq in E. rewrite <- IH. tauto.
Qed.
Lemma NoDup_snoc {A} (l : list A) x : NoDup l -> ~ In x l -> NoDup (l ++ [x]).
Proof.
  intros H N. apply NoDup_rev in H. rewrite <- (rev_involutive (l ++ [x])). apply NoDup_rev.
  rewrite rev_app_distr. cbn. constructor; auto. now rewrite <- in_rev.
Qed.
Lemma NoDup_fst {A B} (l : list (A * B)) a b c : NoDup (map fst l) -> In (a, b) l -> In (a, c) l -> b = c.
Proof.
  induction l as [|[x y] l IH]; cbn; [tauto|]. intros N [E1 | I1] [E2 | I2]; inversion N as [|? ? N1 N2]; subst; auto.
  - congruence.
  - injection E1 as -> ->. exfalso. apply N1. apply (in_map fst) in I2. exact I2.
  - injection E2 as -> ->. exfalso. apply N1. apply (in_map fst) in I1. exact I1.
Qed.

(** ** Projections of the state *)
Definition NI s := map n_id (s_n s).
Definition NO s := map (fun n => (n_id n, n_orig n)) (s_n s).
Definition ND s := map (fun n => (n_id n, n_dual n)) (s_n s).
Definition LK s := map l_id (s_l s).
Definition LI s := map (fun l => (l_id l, (l_n l, l_if l))) (s_l s).
Definition LD s := map (fun l => (l_id l, l_dual l)) (s_l s).
Definition NA s := map (fun x => (na_addr x, na_n x)) (s_na s).
Definition LA s := map (fun x => ((la_if x, la_addr x), la_l x)) (s_la s).
Definition H2 s := map (fun x => (h2_l x, h2_addr x)) (s_h s).
Definition mutual (d : list (Z * option Z)) : Prop := forall i p, In (i, Some p) d -> In (p, Some i) d.

Record wf (s : db) : Prop := {
  w_n : NoDup (NI s);
  w_nf : forall i, In i (NI s) -> i < s_next s;
  w_l : NoDup (LK s);
  w_lf : forall i, In i (LK s) -> i < s_next s;
  w_li : forall i n f, In (i, (n, f)) (LI s) -> In n (NI s) /\ In f (s_ifs s);
  w_na1 : NoDup (map fst (NA s));
  w_na2 : forall a n, In (a, n) (NA s) -> In n (NI s);
  w_la1 : NoDup (map fst (LA s));
  w_la2 : forall f a l, In ((f, a), l) (LA s) -> exists n, In (l, (n, f)) (LI s);
  w_h1 : NoDup (H2 s);
  w_h2 : forall l a, In (l, a) (H2 s) -> In l (LK s);
  w_o : forall i j a, In (i, a) (NO s) -> In (j, a) (NO s) -> a_af a <> 0 -> i = j;
  w_nd : mutual (ND s);
  w_ld : mutual (LD s)
}.

Lemma LK_LI s : LK s = map fst (LI s).
Proof. unfold LK, LI. now rewrite map_map. Qed.
Lemma LK_LD s : LK s = map fst (LD s).
Proof. unfold LK, LD. now rewrite map_map. Qed.
Lemma NI_NO s : NI s = map fst (NO s).
Proof. unfold NI, NO. now rewrite map_map. Qed.
Lemma NI_ND s : NI s = map fst (ND s).
Proof. unfold NI, ND. now rewrite map_map. Qed.

(** nothing but the listed projections matters *)
Record same (s s' : db) : Prop := {
  e_NI : NI s' = NI s; e_NO : NO s' = NO s; e_ND : ND s' = ND s; e_LI : LI s' = LI s; e_LD : LD s' = LD s;
  e_NA : NA s' = NA s; e_LA : LA s' = LA s; e_H2 : H2 s' = H2 s; e_ifs : s_ifs s' = s_ifs s; e_next : s_next s' = s_next s
}.
Lemma same_wf s s' : same s s' -> wf s -> wf s'.
Proof.
  intros [E1 E2 E3 E4 E5 E6 E7 E8 E9 E10] [W1 W2 W3 W4 W5 W6 W7 W8 W9 W10 W11 W12 W13 W14].
  assert (EK : LK s' = LK s) by (rewrite !LK_LI; congruence).
  constructor; rewrite ?E1, ?E2, ?E3, ?E4, ?E5, ?E6, ?E7, ?E8, ?E9, ?E10, ?EK; auto.
Qed.
Lemma same_refl s : same s s.
Proof. constructor; reflexivity. Qed.
Lemma same_trans a b c : same a b -> same b c -> same a c.
Proof. intros [] []. constructor; congruence. Qed.

(** things the primitives never change *)
Record ctx (s s' : db) : Prop := { x_cur : s_cur s' = s_cur s; x_env : s_env s' = s_env s; x_ifs : s_ifs s' = s_ifs s; x_now : s_now s' = s_now s }.
Lemma ctx_refl s : ctx s s.
Proof. constructor; reflexivity. Qed.
Lemma ctx_trans a b c : ctx a b -> ctx b c -> ctx a c.
Proof. intros [] []. constructor; congruence. Qed.
Ltac ctx0 := constructor; reflexivity.

(** ** Access *)
Lemma get_n_ok s i : In i (NI s) -> exists n, get_n s i = Ok n /\ In n (s_n s) /\ n_id n = i.
Proof.
  intros H. apply find_some_iff in H. destruct H as (n & H). exists n. unfold get_n.
  change (find (is_n i) (s_n s) = Some n) in H. rewrite H.
  apply find_some in H. destruct H as [H1 H2]. apply Z.eqb_eq in H2. auto.
Qed.
Lemma get_l_ok s i : In i (LK s) -> exists l, get_l s i = Ok l /\ In l (s_l s) /\ l_id l = i.
Proof.
  intros H. apply find_some_iff in H. destruct H as (n & H). exists n. unfold get_l.
  change (find (is_l i) (s_l s) = Some n) in H. rewrite H.
  apply find_some in H. destruct H as [H1 H2]. apply Z.eqb_eq in H2. auto.
Qed.
Lemma get_n_inv s i n : get_n s i = Ok n -> In n (s_n s) /\ n_id n = i /\ In i (NI s).
Proof.
  unfold get_n. destruct (find (is_n i) (s_n s)) eqn:E; intros H; [|discriminate]. injection H as <-.
  apply find_some in E. destruct E as [E1 E2]. apply Z.eqb_eq in E2. subst. split; auto. split; auto. now apply in_map.
Qed.
Lemma get_l_inv s i l : get_l s i = Ok l -> In l (s_l s) /\ l_id l = i /\ In i (LK s).
Proof.
  unfold get_l. destruct (find (is_l i) (s_l s)) eqn:E; intros H; [|discriminate]. injection H as <-.
  apply find_some in E. destruct E as [E1 E2]. apply Z.eqb_eq in E2. subst. split; auto. split; auto. now apply in_map.
Qed.
Lemma chk_if_ok s f : In f (s_ifs s) -> chk_if s f = Ok tt.
Proof.
  intros H. unfold chk_if. replace (existsb (Z.eqb f) (s_ifs s)) with true; auto.
  symmetry. apply existsb_exists. exists f. rewrite Z.eqb_refl. auto.
Qed.
Lemma in_LI s l : In l (s_l s) -> In (l_id l, (l_n l, l_if l)) (LI s).
Proof. intros H. unfold LI. apply (in_map (fun l => (l_id l, (l_n l, l_if l)))) in H. exact H. Qed.
Lemma in_LD s l : In l (s_l s) -> In (l_id l, l_dual l) (LD s).
Proof. intros H. unfold LD. apply (in_map (fun l => (l_id l, l_dual l))) in H. exact H. Qed.
Lemma in_ND s n : In n (s_n s) -> In (n_id n, n_dual n) (ND s).
Proof. intros H. unfold ND. apply (in_map (fun l => (n_id l, n_dual l))) in H. exact H. Qed.
Lemma in_NO s n : In n (s_n s) -> In (n_id n, n_orig n) (NO s).
Proof. intros H. unfold NO. apply (in_map (fun l => (n_id l, n_orig l))) in H. exact H. Qed.
Lemma LI_LK s i x : In (i, x) (LI s) -> In i (LK s).
Proof. intros H. rewrite LK_LI. apply (in_map fst) in H. exact H. Qed.
Lemma LD_LK s i x : In (i, x) (LD s) -> In i (LK s).
Proof. intros H. rewrite LK_LD. apply (in_map fst) in H. exact H. Qed.
Lemma ND_NI s i x : In (i, x) (ND s) -> In i (NI s).
Proof. intros H. rewrite NI_ND. apply (in_map fst) in H. exact H. Qed.
Lemma LI_fun s i x y : wf s -> In (i, x) (LI s) -> In (i, y) (LI s) -> x = y.
Proof. intros W. apply NoDup_fst. rewrite <- LK_LI. apply W. Qed.
(** a link of a well-formed state with everything it points to *)
Lemma link_full s i n f : wf s -> In (i, (n, f)) (LI s) ->
  exists l, get_l s i = Ok l /\ In l (s_l s) /\ l_id l = i /\ l_n l = n /\ l_if l = f /\ In n (NI s) /\ In f (s_ifs s).
Proof.
  intros W H. destruct (get_l_ok s i) as (l & E & I & D); [eapply LI_LK; eauto|].
  exists l. repeat split; auto.
  - pose proof (in_LI s l I) as X. rewrite D in X. pose proof (LI_fun _ _ _ _ W H X) as Q. congruence.
  - pose proof (in_LI s l I) as X. rewrite D in X. pose proof (LI_fun _ _ _ _ W H X) as Q. congruence.
  - eapply w_li; eauto.
  - eapply w_li; eauto.
Qed.
Lemma link_full' s i : wf s -> In i (LK s) ->
  exists l, get_l s i = Ok l /\ In l (s_l s) /\ l_id l = i /\ In (l_n l) (NI s) /\ In (l_if l) (s_ifs s).
Proof.
  intros W H. destruct (get_l_ok s i H) as (l & E & I & D). pose proof (in_LI s l I) as X. rewrite D in X.
  destruct (w_li s W _ _ _ X). eauto 10.
Qed.

(** ** Updates that keep the shape *)
Lemma same_upd_n s i f : (forall n, n_id (f n) = n_id n /\ n_orig (f n) = n_orig n /\ n_dual (f n) = n_dual n) -> same s (upd_n s i f).
Proof.
  intros H. constructor; try reflexivity; unfold upd_n, NI, NO, ND; cbn [set_n s_n]; apply map_upd; intros n;
    destruct (H n) as (H1 & H2 & H3); congruence.
Qed.
Lemma same_upd_l s i f : (forall l, l_id (f l) = l_id l /\ l_n (f l) = l_n l /\ l_if (f l) = l_if l /\ l_dual (f l) = l_dual l) -> same s (upd_l s i f).
Proof.
  intros H. constructor; try reflexivity; unfold upd_l, LI, LD; cbn [set_l s_l]; apply map_upd; intros l;
    destruct (H l) as (H1 & H2 & H3 & H4); congruence.
Qed.
Lemma same_upd_na s p f : (forall x, na_addr (f x) = na_addr x /\ na_n (f x) = na_n x) -> same s (set_na s (upd p f (s_na s))).
Proof.
  intros H. constructor; try reflexivity. unfold NA; cbn [set_na s_na]. apply map_upd. intros x. destruct (H x); congruence.
Qed.
Lemma same_upd_la s p f : (forall x, la_addr (f x) = la_addr x /\ la_l (f x) = la_l x /\ la_if (f x) = la_if x) -> same s (set_la s (upd p f (s_la s))).
Proof.
  intros H. constructor; try reflexivity. unfold LA; cbn [set_la s_la]. apply map_upd. intros x. destruct (H x) as (? & ? & ?); congruence.
Qed.
Lemma same_upd_h s p f : (forall x, h2_addr (f x) = h2_addr x /\ h2_l (f x) = h2_l x) -> same s (set_h s (upd p f (s_h s))).
Proof.
  intros H. constructor; try reflexivity. unfold H2; cbn [set_h s_h]. apply map_upd. intros x. destruct (H x); congruence.
Qed.

(** ** Smaller sets of addresses *)
Lemma wf_del_na s p : wf s -> wf (set_na s (del p (s_na s))).
Proof.
  intros [W1 W2 W3 W4 W5 W6 W7 W8 W9 W10 W11 W12 W13 W14]. constructor; auto; unfold NA; cbn [set_na s_na].
  - unfold NA in W6. rewrite map_map in *. now apply NoDup_map_del.
  - intros a n H. apply in_map_iff in H. destruct H as (x & E & H). apply in_del in H. apply (W7 a n).
    unfold NA. apply in_map_iff. exists x. tauto.
Qed.
Lemma wf_del_la s p : wf s -> wf (set_la s (del p (s_la s))).
Proof.
  intros [W1 W2 W3 W4 W5 W6 W7 W8 W9 W10 W11 W12 W13 W14]. constructor; auto; unfold LA; cbn [set_la s_la].
  - unfold LA in W8. rewrite map_map in *. now apply NoDup_map_del.
  - intros f a l H. apply in_map_iff in H. destruct H as (x & E & H). apply in_del in H. apply (W9 f a l).
    unfold LA. apply in_map_iff. exists x. tauto.
Qed.
Lemma wf_del_h s p : wf s -> wf (set_h s (del p (s_h s))).
Proof.
  intros [W1 W2 W3 W4 W5 W6 W7 W8 W9 W10 W11 W12 W13 W14]. constructor; auto; unfold H2; cbn [set_h s_h].
  - now apply NoDup_map_del.
  - intros l a H. apply in_map_iff in H. destruct H as (x & E & H). apply in_del in H. apply (W11 l a).
    unfold H2. apply in_map_iff. exists x. tauto.
Qed.

(** ** Dualstack partners *)
Definition clear2 (a b : Z) (d : list (Z * option Z)) : list (Z * option Z) :=
  map (fun x => if (fst x =? a) || (fst x =? b) then (fst x, None) else x) d.
Lemma in_clear2 a b d i v : In (i, v) (clear2 a b d) <-> (i = a \/ i = b) /\ v = None /\ In i (map fst d) \/ i <> a /\ i <> b /\ In (i, v) d.
Proof.
  unfold clear2. rewrite in_map_iff. split.
  - intros ([j w] & E & H). cbn [fst] in E. destruct (j =? a) eqn:E1; [|destruct (j =? b) eqn:E2]; cbn [orb] in E; injection E as <- <-.
    + apply Z.eqb_eq in E1. left. apply (in_map fst) in H. auto.
    + apply Z.eqb_eq in E2. left. apply (in_map fst) in H. auto.
    + apply Z.eqb_neq in E1, E2. auto.
  - intros [(H1 & -> & H2) | (H1 & H2 & H3)].
    + apply in_map_iff in H2. destruct H2 as ([j w] & E & H). cbn in E. subst j. exists (i, w). split; auto. cbn [fst].
      replace ((i =? a) || (i =? b)) with true; auto. symmetry. apply orb_true_iff. rewrite !Z.eqb_eq. auto.
    + exists (i, v). split; auto. cbn [fst]. apply Z.eqb_neq in H1, H2. now rewrite H1, H2.
Qed.
Lemma clear2_mutual a p d : NoDup (map fst d) -> In (a, Some p) d -> mutual d -> mutual (clear2 p a d).
Proof.
  intros N I M i q H. apply in_clear2 in H. destruct H as [(_ & H & _) | (H1 & H2 & H3)]; [discriminate|].
  apply M in H3. apply in_clear2. right. repeat split; auto; intros ->.
  - pose proof (M _ _ I) as I2. pose proof (NoDup_fst _ _ _ _ N H3 I2). congruence.
  - pose proof (NoDup_fst _ _ _ _ N H3 I). congruence.
Qed.
Definition set1 {B} (a : Z) (v : B) (d : list (Z * B)) : list (Z * B) :=
  map (fun x => if fst x =? a then (fst x, v) else x) d.
Lemma in_set1 {B} a (w : B) d i v : In (i, v) (set1 a w d) <-> i = a /\ v = w /\ In i (map fst d) \/ i <> a /\ In (i, v) d.
Proof.
  unfold set1. rewrite in_map_iff. split.
  - intros ([j u] & E & H). cbn [fst] in E. destruct (j =? a) eqn:E1; injection E as <- <-.
    + apply Z.eqb_eq in E1. left. apply (in_map fst) in H. auto.
    + apply Z.eqb_neq in E1. auto.
  - intros [(-> & -> & H2) | (H1 & H2)].
    + apply in_map_iff in H2. destruct H2 as ([j u] & E & H). cbn in E. subst j. exists (a, u). split; auto. cbn [fst]. now rewrite Z.eqb_refl.
    + exists (i, v). split; auto. cbn [fst]. apply Z.eqb_neq in H1. now rewrite H1.
Qed.
Lemma ND_set_dual s i v : ND (upd_n s i (n_set_dual v)) = set1 i v (ND s).
Proof.
  unfold ND, set1, upd_n, upd, is_n. cbn [set_n s_n]. rewrite !map_map. apply map_ext. intros n. cbn [fst].
  destruct (n_id n =? i); reflexivity.
Qed.
Lemma LD_set_dual s i v : LD (upd_l s i (l_set_dual v)) = set1 i v (LD s).
Proof.
  unfold LD, set1, upd_l, upd, is_l. cbn [set_l s_l]. rewrite !map_map. apply map_ext. intros n. cbn [fst].
  destruct (l_id n =? i); reflexivity.
Qed.
Lemma set1_clear2 a p d : set1 a None (set1 p None d) = clear2 p a d.
Proof.
  unfold set1, clear2. rewrite map_map. apply map_ext. intros [i v]. cbn [fst]. destruct (i =? p) eqn:E1; cbn [fst orb].
  - destruct (i =? a); reflexivity.
  - destruct (i =? a); reflexivity.
Qed.

(** everything but the partners *)
Record sameN (s s' : db) : Prop := {
  n_NI : NI s' = NI s; n_NO : NO s' = NO s; n_LI : LI s' = LI s; n_LD : LD s' = LD s;
  n_NA : NA s' = NA s; n_LA : LA s' = LA s; n_H2 : H2 s' = H2 s; n_ifs : s_ifs s' = s_ifs s; n_next : s_next s' = s_next s
}.
Record sameL (s s' : db) : Prop := {
  q_NI : NI s' = NI s; q_NO : NO s' = NO s; q_ND : ND s' = ND s; q_LI : LI s' = LI s;
  q_NA : NA s' = NA s; q_LA : LA s' = LA s; q_H2 : H2 s' = H2 s; q_ifs : s_ifs s' = s_ifs s; q_next : s_next s' = s_next s
}.
Lemma sameN_wf s s' : sameN s s' -> wf s -> mutual (ND s') -> wf s'.
Proof.
  intros [E1 E2 E4 E5 E6 E7 E8 E9 E10] [W1 W2 W3 W4 W5 W6 W7 W8 W9 W10 W11 W12 W13 W14] M.
  assert (EK : LK s' = LK s) by (rewrite !LK_LI; congruence).
  constructor; rewrite ?E1, ?E2, ?E4, ?E5, ?E6, ?E7, ?E8, ?E9, ?E10, ?EK; auto.
Qed.
Lemma sameL_wf s s' : sameL s s' -> wf s -> mutual (LD s') -> wf s'.
Proof.
  intros [E1 E2 E3 E4 E6 E7 E8 E9 E10] [W1 W2 W3 W4 W5 W6 W7 W8 W9 W10 W11 W12 W13 W14] M.
  assert (EK : LK s' = LK s) by (rewrite !LK_LI; congruence).
  constructor; rewrite ?E1, ?E2, ?E3, ?E4, ?E6, ?E7, ?E8, ?E9, ?E10, ?EK; auto.
Qed.
Lemma sameN_dual s i v : sameN s (upd_n s i (n_set_dual v)).
Proof. constructor; try reflexivity; unfold upd_n, NI, NO; cbn [set_n s_n]; apply map_upd; reflexivity. Qed.
Lemma sameL_dual s i v : sameL s (upd_l s i (l_set_dual v)).
Proof. constructor; try reflexivity; unfold upd_l, LI; cbn [set_l s_l]; apply map_upd; reflexivity. Qed.
Lemma sameN_refl s : sameN s s.
Proof. constructor; reflexivity. Qed.
Lemma sameL_refl s : sameL s s.
Proof. constructor; reflexivity. Qed.
Lemma sameN_trans a b c : sameN a b -> sameN b c -> sameN a c.
Proof. intros [] []. constructor; congruence. Qed.
Lemma sameL_trans a b c : sameL a b -> sameL b c -> sameL a c.
Proof. intros [] []. constructor; congruence. Qed.

Lemma n_disconnect_ok s i : wf s -> In i (NI s) ->
  exists s', n_disconnect s i = Ok s' /\ wf s' /\ ctx s s' /\ sameN s s' /\ In (i, None) (ND s') /\
    (forall j v, In (j, Some v) (ND s') -> j <> i /\ v <> i).
Proof.
  intros W I. destruct (get_n_ok s i I) as (n & E & In_ & D). unfold n_disconnect. rewrite E. cbn [rbind].
  pose proof (in_ND s n In_) as X. rewrite D in X.
  assert (ND1 : NoDup (map fst (ND s))) by (rewrite <- NI_ND; apply W).
  destruct (n_dual n) as [p|] eqn:P.
  - destruct (get_n_ok s p) as (m & E2 & _); [eapply ND_NI; eapply (w_nd s W); eauto|]. rewrite E2. cbn [rbind].
    assert (EQ : ND (upd_n (upd_n s p (n_set_dual None)) i (n_set_dual None)) = clear2 p i (ND s))
      by (rewrite !ND_set_dual; apply set1_clear2).
    assert (SN : sameN s (upd_n (upd_n s p (n_set_dual None)) i (n_set_dual None)))
      by (eapply sameN_trans; apply sameN_dual).
    assert (MU : mutual (clear2 p i (ND s))) by (eapply clear2_mutual; eauto; apply W).
    eexists. split; [reflexivity|]. split; [|split; [ctx0|split; [exact SN|split]]].
    + eapply sameN_wf; eauto. now rewrite EQ.
    + rewrite EQ. apply in_clear2. left. rewrite <- NI_ND. auto.
    + intros j v H. rewrite EQ in H. assert (H' := MU _ _ H). apply in_clear2 in H, H'.
      destruct H as [(_ & H & _) | (A1 & A2 & _)]; [discriminate|]. destruct H' as [(_ & H & _) | (B1 & B2 & _)]; [discriminate|]. auto.
  - eexists. split; [reflexivity|]. split; [auto|]. split; [apply ctx_refl|]. split; [apply sameN_refl|]. split; [auto|].
    intros j v H. split; intros ->.
    + pose proof (NoDup_fst _ _ _ _ ND1 H X). congruence.
    + apply (w_nd s W) in H. pose proof (NoDup_fst _ _ _ _ ND1 H X). congruence.
Qed.
Lemma l_disconnect_ok s i : wf s -> In i (LK s) ->
  exists s', l_disconnect s i = Ok s' /\ wf s' /\ ctx s s' /\ sameL s s' /\ In (i, None) (LD s') /\
    (forall j v, In (j, Some v) (LD s') -> j <> i /\ v <> i).
Proof.
  intros W I. destruct (get_l_ok s i I) as (n & E & In_ & D). unfold l_disconnect. rewrite E. cbn [rbind].
  pose proof (in_LD s n In_) as X. rewrite D in X.
  assert (ND1 : NoDup (map fst (LD s))) by (rewrite <- LK_LD; apply W).
  destruct (l_dual n) as [p|] eqn:P.
  - destruct (get_l_ok s p) as (m & E2 & _); [eapply LD_LK; eapply (w_ld s W); eauto|]. rewrite E2. cbn [rbind].
    assert (EQ : LD (upd_l (upd_l s p (l_set_dual None)) i (l_set_dual None)) = clear2 p i (LD s))
      by (rewrite !LD_set_dual; apply set1_clear2).
    assert (SN : sameL s (upd_l (upd_l s p (l_set_dual None)) i (l_set_dual None)))
      by (eapply sameL_trans; apply sameL_dual).
    assert (MU : mutual (clear2 p i (LD s))) by (eapply clear2_mutual; eauto; apply W).
    eexists. split; [reflexivity|]. split; [|split; [ctx0|split; [exact SN|split]]].
    + eapply sameL_wf; eauto. now rewrite EQ.
    + rewrite EQ. apply in_clear2. left. rewrite <- LK_LD. auto.
    + intros j v H. rewrite EQ in H. assert (H' := MU _ _ H). apply in_clear2 in H, H'.
      destruct H as [(_ & H & _) | (A1 & A2 & _)]; [discriminate|]. destruct H' as [(_ & H & _) | (B1 & B2 & _)]; [discriminate|]. auto.
  - eexists. split; [reflexivity|]. split; [auto|]. split; [apply ctx_refl|]. split; [apply sameL_refl|]. split; [auto|].
    intros j v H. split; intros ->.
    + pose proof (NoDup_fst _ _ _ _ ND1 H X). congruence.
    + apply (w_ld s W) in H. pose proof (NoDup_fst _ _ _ _ ND1 H X). congruence.
Qed.

(** the partners after connecting [a] and [b], from a table without [a] *)
Lemma in_fst {A B} (d : list (A * B)) i v : In (i, v) d -> In i (map fst d).
Proof. intros H. apply (in_map fst) in H. exact H. Qed.
Lemma set1_fst {B} a (v : B) d : map fst (set1 a v d) = map fst d.
Proof. unfold set1. rewrite map_map. apply map_ext. intros [i w]. cbn. destruct (i =? a); reflexivity. Qed.
Lemma clear2_fst a b d : map fst (clear2 a b d) = map fst d.
Proof. unfold clear2. rewrite map_map. apply map_ext. intros [i w]. cbn. destruct ((i =? a) || (i =? b)); reflexivity. Qed.
Lemma mutual_self a d : mutual d -> (forall j v, In (j, Some v) d -> j <> a /\ v <> a) -> In a (map fst d) -> mutual (set1 a (Some a) d).
Proof.
  intros M F I i p H. apply in_set1 in H. apply in_set1. destruct H as [(-> & E & _) | (H1 & H2)].
  - injection E as ->. left. auto.
  - destruct (F _ _ H2). right. auto.
Qed.
Lemma mutual_none a b d : a <> b -> mutual d -> (forall j v, In (j, Some v) d -> j <> a /\ v <> a) -> In (b, None) d -> NoDup (map fst d) ->
  In a (map fst d) -> mutual (set1 b (Some a) (set1 a (Some b) d)).
Proof.
  intros AB M F B ND I i p H. apply in_set1 in H. rewrite set1_fst in H. destruct H as [(-> & E & H) | (H1 & H2)].
  - injection E as ->. apply in_set1. right. split; auto. apply in_set1. auto.
  - apply in_set1 in H2. destruct H2 as [(-> & E & H2) | (H2 & H3)].
    + injection E as ->. apply in_set1. left. rewrite set1_fst. repeat split; auto. eapply in_fst; eauto.
    + destruct (F _ _ H3) as (F1 & F2). apply in_set1. right. split.
      * intros ->. apply M in H3. pose proof (NoDup_fst _ _ _ _ ND H3 B). discriminate.
      * apply in_set1. right. auto.
Qed.
Lemma mutual_some a b c d : a <> b -> mutual d -> (forall j v, In (j, Some v) d -> j <> a /\ v <> a) -> In (b, Some c) d -> NoDup (map fst d) ->
  In a (map fst d) -> mutual (set1 b (Some a) (clear2 c b (set1 a (Some b) d))).
Proof.
  intros AB M F B ND I i p H. destruct (F _ _ B) as (F0 & F0').
  apply in_set1 in H. rewrite clear2_fst, set1_fst in H. destruct H as [(-> & E & H) | (H1 & H2)].
  - injection E as ->. apply in_set1. right. split; auto. apply in_clear2. right. repeat split; auto. apply in_set1. auto.
  - apply in_clear2 in H2. destruct H2 as [(_ & H2 & _) | (H2 & H3 & H4)]; [discriminate|].
    apply in_set1 in H4. destruct H4 as [(-> & E & H4) | (H4 & H5)].
    + injection E as ->. apply in_set1. left. rewrite clear2_fst, set1_fst. repeat split; auto. eapply in_fst; eauto.
    + destruct (F _ _ H5) as (F1 & F2). assert (p <> b).
      { intros ->. apply M in H5. pose proof (NoDup_fst _ _ _ _ ND H5 B). congruence. }
      assert (p <> c).
      { intros ->. apply M in H5. apply M in B. pose proof (NoDup_fst _ _ _ _ ND H5 B). congruence. }
      apply in_set1. right. split; auto. apply in_clear2. right. repeat split; auto. apply in_set1. right. auto.
Qed.
Lemma dual_is_spec d i : dual_is d i = true <-> d = Some i.
Proof. destruct d; cbn; [rewrite Z.eqb_eq|]; split; congruence. Qed.
Lemma get_n_dual s i n v : wf s -> get_n s i = Ok n -> In (i, v) (ND s) -> n_dual n = v.
Proof.
  intros W E H. apply get_n_inv in E. destruct E as (E1 & E2 & _). apply in_ND in E1. rewrite E2 in E1.
  eapply NoDup_fst; eauto. rewrite <- NI_ND. apply W.
Qed.
Lemma get_l_dual s i n v : wf s -> get_l s i = Ok n -> In (i, v) (LD s) -> l_dual n = v.
Proof.
  intros W E H. apply get_l_inv in E. destruct E as (E1 & E2 & _). apply in_LD in E1. rewrite E2 in E1.
  eapply NoDup_fst; eauto. rewrite <- LK_LD. apply W.
Qed.

Lemma find_upd_other {A} (p q : A -> bool) f (l : list A) :
  (forall x, p x = true -> q (f x) = q x) -> (forall x, q x = true -> p x = false) -> find q (upd p f l) = find q l.
Proof.
  intros H1 H2. unfold upd. induction l as [|x l IH]; cbn; auto. destruct (p x) eqn:P.
  - rewrite H1 by auto. destruct (q x) eqn:Q; auto. apply H2 in Q. congruence.
  - destruct (q x); auto.
Qed.
Lemma find_upd_same {A} (p : A -> bool) f (l : list A) :
  (forall x, p x = true -> p (f x) = true) -> find p (upd p f l) = option_map f (find p l).
Proof.
  intros H. unfold upd. induction l as [|x l IH]; cbn; auto. destruct (p x) eqn:P; cbn.
  - now rewrite H.
  - now rewrite P.
Qed.
Lemma get_n_upd_other s i j f : (forall n, n_id (f n) = n_id n) -> i <> j -> get_n (upd_n s i f) j = get_n s j.
Proof.
  intros H N. unfold get_n, upd_n, is_n. cbn [set_n s_n]. rewrite find_upd_other; auto.
  - intros x _. now rewrite H.
  - intros x E. apply Z.eqb_eq in E. apply Z.eqb_neq. congruence.
Qed.
Lemma get_n_upd_same s i f n : (forall n, n_id (f n) = n_id n) -> get_n s i = Ok n -> get_n (upd_n s i f) i = Ok (f n).
Proof.
  intros H. unfold get_n, upd_n, is_n. cbn [set_n s_n]. rewrite find_upd_same.
  - destruct (find (fun n0 => n_id n0 =? i) (s_n s)); cbn; congruence.
  - intros x. now rewrite H.
Qed.
Lemma get_l_upd_other s i j f : (forall n, l_id (f n) = l_id n) -> i <> j -> get_l (upd_l s i f) j = get_l s j.
Proof.
  intros H N. unfold get_l, upd_l, is_l. cbn [set_l s_l]. rewrite find_upd_other; auto.
  - intros x _. now rewrite H.
  - intros x E. apply Z.eqb_eq in E. apply Z.eqb_neq. congruence.
Qed.
Lemma get_l_upd_same s i f n : (forall n, l_id (f n) = l_id n) -> get_l s i = Ok n -> get_l (upd_l s i f) i = Ok (f n).
Proof.
  intros H. unfold get_l, upd_l, is_l. cbn [set_l s_l]. rewrite find_upd_same.
  - destruct (find (fun n0 => l_id n0 =? i) (s_l s)); cbn; congruence.
  - intros x. now rewrite H.
Qed.

Lemma n_connect_ok s a b : wf s -> In a (NI s) -> In b (NI s) ->
  exists s', n_connect s a b = Ok s' /\ wf s' /\ ctx s s' /\ sameN s s'.
Proof.
  intros W Ia Ib. unfold n_connect. destruct (get_n_ok s a Ia) as (na & Ea & Ina & Da). rewrite Ea. cbn [rbind].
  pose proof (in_ND s na Ina) as Xa. rewrite Da in Xa.
  destruct (dual_is (n_dual na) b) eqn:E1.
  - cbn [rbind]. apply dual_is_spec in E1. rewrite E1 in Xa. apply (w_nd s W) in Xa.
    destruct (get_n_ok s b Ib) as (nb & Eb & Inb & Db). rewrite Eb. cbn [rbind].
    rewrite (get_n_dual s b nb _ W Eb Xa). cbn [dual_is]. rewrite Z.eqb_refl. exists s. auto using ctx_refl, sameN_refl.
  - destruct (n_disconnect_ok s a W Ia) as (s1 & H1 & W1 & C1 & S1 & Z1 & F1). rewrite H1. cbn [rbind].
    assert (Ia1 : In a (NI s1)) by (rewrite (n_NI _ _ S1); auto). assert (Ib1 : In b (NI s1)) by (rewrite (n_NI _ _ S1); auto).
    assert (NDup : NoDup (map fst (ND s1))) by (rewrite <- NI_ND; apply W1).
    set (s2 := upd_n s1 a (n_set_dual (Some b))).
    assert (S2 : sameN s1 s2) by apply sameN_dual. assert (C2 : ctx s1 s2) by ctx0.
    destruct (Z.eq_dec a b) as [<- | AB].
    + destruct (get_n_ok s1 a Ia1) as (n1 & E & _). assert (G : get_n s2 a = Ok (n_set_dual (Some a) n1)) by (unfold s2; apply get_n_upd_same; auto). rewrite G. cbn [rbind n_set_dual n_dual dual_is].
      rewrite Z.eqb_refl. exists s2. split; auto. split; [|split; [eapply ctx_trans; eauto|eapply sameN_trans; eauto]].
      eapply sameN_wf; eauto. unfold s2. rewrite ND_set_dual. apply mutual_self; auto. apply W1. rewrite <- NI_ND. auto.
    + destruct (get_n_ok s1 b Ib1) as (nb & Eb & Inb & Db). pose proof (in_ND s1 nb Inb) as Xb. rewrite Db in Xb.
      assert (Eb2 : get_n s2 b = Ok nb) by (unfold s2; rewrite get_n_upd_other; auto).
      rewrite Eb2. cbn [rbind]. destruct (dual_is (n_dual nb) a) eqn:E2.
      { apply dual_is_spec in E2. rewrite E2 in Xb. destruct (F1 _ _ Xb). congruence. }
      unfold n_disconnect. rewrite Eb2. cbn [rbind]. destruct (n_dual nb) as [c|] eqn:Dc.
      * destruct (F1 _ _ Xb) as (F2 & F3). assert (Ic : In c (NI s2)) by (rewrite (n_NI _ _ S2); eapply ND_NI; eapply (w_nd s1 W1); eauto).
        destruct (get_n_ok s2 c Ic) as (nc & Ec & _). rewrite Ec. cbn [rbind]. eexists. split; [reflexivity|].
        assert (S3 : sameN s2 (upd_n (upd_n (upd_n s2 c (n_set_dual None)) b (n_set_dual None)) b (n_set_dual (Some a))))
          by (eapply sameN_trans; [eapply sameN_trans|]; apply sameN_dual).
        split; [|split; [eapply ctx_trans; [eauto|ctx0]|repeat (eapply sameN_trans; eauto)]].
        eapply sameN_wf; [eapply sameN_trans; [apply S2|apply S3]|auto|].
        rewrite ND_set_dual, !ND_set_dual, set1_clear2. unfold s2. rewrite ND_set_dual.
        apply mutual_some; auto. apply W1. rewrite <- NI_ND; auto.
      * cbn [rbind]. eexists. split; [reflexivity|].
        assert (S3 : sameN s2 (upd_n s2 b (n_set_dual (Some a)))) by apply sameN_dual.
        split; [|split; [eapply ctx_trans; [eauto|ctx0]|repeat (eapply sameN_trans; eauto)]].
        eapply sameN_wf; [eapply sameN_trans; [apply S2|apply S3]|auto|].
        rewrite ND_set_dual. unfold s2. rewrite ND_set_dual. apply mutual_none; auto. apply W1. rewrite <- NI_ND; auto.
Qed.
Lemma sameL_LK s s' : sameL s s' -> LK s' = LK s.
Proof. intros E. rewrite !LK_LI. f_equal. apply E. Qed.
Lemma l_connect_ok s a b : wf s -> In a (LK s) -> In b (LK s) ->
  exists s', l_connect s a b = Ok s' /\ wf s' /\ ctx s s' /\ sameL s s'.
Proof.
  intros W Ia Ib. unfold l_connect. destruct (get_l_ok s a Ia) as (na & Ea & Ina & Da). rewrite Ea. cbn [rbind].
  pose proof (in_LD s na Ina) as Xa. rewrite Da in Xa.
  destruct (dual_is (l_dual na) b) eqn:E1.
  - cbn [rbind]. apply dual_is_spec in E1. rewrite E1 in Xa. apply (w_ld s W) in Xa.
    destruct (get_l_ok s b Ib) as (nb & Eb & Inb & Db). rewrite Eb. cbn [rbind].
    rewrite (get_l_dual s b nb _ W Eb Xa). cbn [dual_is]. rewrite Z.eqb_refl. exists s. auto using ctx_refl, sameL_refl.
  - destruct (l_disconnect_ok s a W Ia) as (s1 & H1 & W1 & C1 & S1 & Z1 & F1). rewrite H1. cbn [rbind].
    assert (Ia1 : In a (LK s1)) by (rewrite (sameL_LK _ _ S1); auto). assert (Ib1 : In b (LK s1)) by (rewrite (sameL_LK _ _ S1); auto).
    assert (NDup : NoDup (map fst (LD s1))) by (rewrite <- LK_LD; apply W1).
    set (s2 := upd_l s1 a (l_set_dual (Some b))).
    assert (S2 : sameL s1 s2) by apply sameL_dual. assert (C2 : ctx s1 s2) by ctx0.
    destruct (Z.eq_dec a b) as [<- | AB].
    + destruct (get_l_ok s1 a Ia1) as (n1 & E & _). assert (G : get_l s2 a = Ok (l_set_dual (Some a) n1)) by (unfold s2; apply get_l_upd_same; auto). rewrite G. cbn [rbind l_set_dual l_dual dual_is].
      rewrite Z.eqb_refl. exists s2. split; auto. split; [|split; [eapply ctx_trans; eauto|eapply sameL_trans; eauto]].
      eapply sameL_wf; eauto. unfold s2. rewrite LD_set_dual. apply mutual_self; auto. apply W1. rewrite <- LK_LD. auto.
    + destruct (get_l_ok s1 b Ib1) as (nb & Eb & Inb & Db). pose proof (in_LD s1 nb Inb) as Xb. rewrite Db in Xb.
      assert (Eb2 : get_l s2 b = Ok nb) by (unfold s2; rewrite get_l_upd_other; auto).
      rewrite Eb2. cbn [rbind]. destruct (dual_is (l_dual nb) a) eqn:E2.
      { apply dual_is_spec in E2. rewrite E2 in Xb. destruct (F1 _ _ Xb). congruence. }
      unfold l_disconnect. rewrite Eb2. cbn [rbind]. destruct (l_dual nb) as [c|] eqn:Dc.
      * destruct (F1 _ _ Xb) as (F2 & F3). assert (Ic : In c (LK s2)) by (rewrite (sameL_LK _ _ S2); eapply LD_LK; eapply (w_ld s1 W1); eauto).
        destruct (get_l_ok s2 c Ic) as (nc & Ec & _). rewrite Ec. cbn [rbind]. eexists. split; [reflexivity|].
        assert (S3 : sameL s2 (upd_l (upd_l (upd_l s2 c (l_set_dual None)) b (l_set_dual None)) b (l_set_dual (Some a))))
          by (eapply sameL_trans; [eapply sameL_trans|]; apply sameL_dual).
        split; [|split; [eapply ctx_trans; [eauto|ctx0]|repeat (eapply sameL_trans; eauto)]].
        eapply sameL_wf; [eapply sameL_trans; [apply S2|apply S3]|auto|].
        rewrite LD_set_dual, !LD_set_dual, set1_clear2. unfold s2. rewrite LD_set_dual.
        apply mutual_some; auto. apply W1. rewrite <- LK_LD; auto.
      * cbn [rbind]. eexists. split; [reflexivity|].
        assert (S3 : sameL s2 (upd_l s2 b (l_set_dual (Some a)))) by apply sameL_dual.
        split; [|split; [eapply ctx_trans; [eauto|ctx0]|repeat (eapply sameL_trans; eauto)]].
        eapply sameL_wf; [eapply sameL_trans; [apply S2|apply S3]|auto|].
        rewrite LD_set_dual. unfold s2. rewrite LD_set_dual. apply mutual_none; auto. apply W1. rewrite <- LK_LD; auto.
Qed.

(** ** Removing links and neighbors *)
Lemma in_LI_del s i x : In x (del (fun y => fst y =? i) (LI s)) <-> In x (LI s) /\ fst x <> i.
Proof. rewrite in_del, Z.eqb_neq. tauto. Qed.
Definition rm_link (i : Z) (s s' : db) : Prop :=
  LI s' = del (fun y => fst y =? i) (LI s) /\ NI s' = NI s /\ NO s' = NO s /\ ND s' = ND s /\ NA s' = NA s /\ s_next s' = s_next s /\
  LA s' = del (fun y => snd y =? i) (LA s) /\ H2 s' = del (fun y => fst y =? i) (H2 s).
Lemma link_remove_core s i : wf s -> (forall j v, In (j, Some v) (LD s) -> j <> i /\ v <> i) ->
  let s' := set_l (set_h (set_la s (del (fun x => la_l x =? i) (s_la s))) (del (fun x => h2_l x =? i) (s_h s))) (del (is_l i) (s_l s)) in
  wf s' /\ rm_link i s s'.
Proof.
  intros W F s'.
  assert (E1 : LI s' = del (fun y => fst y =? i) (LI s)) by (apply map_del; reflexivity).
  assert (E2 : LK s' = del (fun y => y =? i) (LK s)) by (apply map_del; reflexivity).
  assert (E3 : LD s' = del (fun y => fst y =? i) (LD s)) by (apply map_del; reflexivity).
  assert (E4 : LA s' = del (fun y => snd y =? i) (LA s)) by (apply map_del; reflexivity).
  assert (E5 : H2 s' = del (fun y => fst y =? i) (H2 s)) by (apply map_del; reflexivity).
  split; [|unfold rm_link; rewrite E1, E4, E5; repeat split; reflexivity].
  destruct W as [W1 W2 W3 W4 W5 W6 W7 W8 W9 W10 W11 W12 W13 W14]. constructor; auto.
  - rewrite E2. now apply NoDup_del.
  - rewrite E2. intros j H. apply in_del in H. apply W4. tauto.
  - rewrite E1. intros j n f H. apply in_LI_del in H. apply (W5 j n f). tauto.
  - rewrite E4. now apply NoDup_map_del.
  - rewrite E4, E1. intros f a l H. apply in_del in H. destruct H as [H1 H2]. cbn in H2. apply Z.eqb_neq in H2.
    destruct (W9 _ _ _ H1) as (n & Hn). exists n. apply in_LI_del. auto.
  - rewrite E5. now apply NoDup_del.
  - rewrite E5, E2. intros l a H. apply in_del in H. destruct H as [H1 H2]. cbn in H2. apply in_del. split; eauto.
  - rewrite E3. intros j p H. apply in_del in H. destruct H as [H1 H2]. destruct (F _ _ H1). apply in_del. split; auto.
    cbn. now apply Z.eqb_neq.
Qed.
Lemma link_remove_ok s i : wf s -> In i (LK s) -> exists s', link_remove s i = Ok s' /\ wf s' /\ ctx s s' /\ rm_link i s s'.
Proof.
  intros W I. unfold link_remove. destruct (link_full' s i W I) as (l & E & Il & Di & In_ & If). rewrite E. cbn [rbind].
  assert (X : exists s1, (if active (l_dual l) then l_disconnect s i else Ok s) = Ok s1 /\ wf s1 /\ ctx s s1 /\ sameL s s1 /\
                         (forall j v, In (j, Some v) (LD s1) -> j <> i /\ v <> i)).
  { destruct (l_disconnect_ok s i W I) as (s1 & H1 & W1 & C1 & S1 & Z1 & F1). destruct (active (l_dual l)) eqn:A.
    - exists s1. auto 10.
    - assert (s1 = s) as ->; [|exists s; auto 10].
      unfold l_disconnect in H1. rewrite E in H1. cbn [rbind] in H1. destruct (l_dual l); [discriminate|congruence]. }
  destruct X as (s1 & -> & W1 & C1 & S1 & F1). cbn [rbind].
  destruct (get_n_ok s1 (l_n l)) as (n & -> & _); [rewrite (q_NI _ _ S1); auto|]. cbn [rbind].
  rewrite chk_if_ok by (rewrite (q_ifs _ _ S1); auto). cbn [rbind].
  eexists. split; [reflexivity|]. destruct (link_remove_core s1 i W1 F1) as (W2 & R).
  split; [exact W2|]. split; [eapply ctx_trans; [exact C1|ctx0]|].
  assert (T : forall s', rm_link i s1 s' -> rm_link i s s'); [|apply T; exact R].
  clear - S1. intros s'. unfold rm_link. intros (R1 & R2 & R3 & R4 & R5 & R6 & R7 & R8). destruct S1. repeat split; congruence.
Qed.

Definition hit (ids : list Z) (i : Z) : bool := existsb (Z.eqb i) ids.
Lemma hit_In ids i : hit ids i = true <-> In i ids.
Proof. unfold hit. rewrite existsb_exists. split; [intros (x & H & E); apply Z.eqb_eq in E; now subst|intros H; exists i; now rewrite Z.eqb_refl]. Qed.
Lemma del_del {A} p q (l : list A) : del p (del q l) = del (fun x => q x || p x) l.
Proof. unfold del. induction l as [|x l IH]; cbn; auto. destruct (q x) eqn:Q; cbn; auto. destruct (p x); cbn; rewrite IH; auto. Qed.
Lemma del_ext {A} p q (l : list A) : (forall x, In x l -> p x = q x) -> del p l = del q l.
Proof. intros H. unfold del. apply filter_ext_in. intros x I. now rewrite H. Qed.
Lemma links_remove_ok ids : forall s, wf s -> NoDup ids -> (forall i, In i ids -> In i (LK s)) ->
  exists s', links_remove s ids = Ok s' /\ wf s' /\ ctx s s' /\ LI s' = del (fun y => hit ids (fst y)) (LI s) /\ NI s' = NI s /\ NO s' = NO s /\ ND s' = ND s /\
    NA s' = NA s /\ s_next s' = s_next s /\ LA s' = del (fun y => hit ids (snd y)) (LA s) /\ H2 s' = del (fun y => hit ids (fst y)) (H2 s).
Proof.
  induction ids as [|i ids IH]; intros s W N H; cbn [links_remove].
  - exists s. assert (E : forall A (l : list A), del (fun _ => false) l = l).
    { intros A l. unfold del. cbn. induction l; cbn; congruence. }
    cbn [hit existsb]. rewrite !E. auto 20 using ctx_refl.
  - inversion N as [|? ? N1 N2]; subst. destruct (link_remove_ok s i W) as (s1 & E1 & W1 & C1 & R1 & R2 & R3 & R4 & R5 & R6 & R7 & R8); [apply H; now left|].
    rewrite E1. cbn [rbind]. destruct (IH s1 W1 N2) as (s2 & E2 & W2 & C2 & Q1 & Q2 & Q3 & Q4 & Q5 & Q6 & Q7 & Q8).
    { intros j Hj. rewrite LK_LI, R1. specialize (H j (or_intror Hj)). rewrite LK_LI in H. apply in_map_iff in H.
      destruct H as (x & E & Hx). apply in_map_iff. exists x. split; auto. apply in_LI_del. split; auto. intros C. apply N1. congruence. }
    exists s2. split; auto. split; auto. split; [eapply ctx_trans; eauto|].
    assert (EX : forall x, (x =? i) || hit ids x = hit (i :: ids) x) by reflexivity.
    rewrite Q1, R1, Q7, R7, Q8, R8, !del_del. repeat split; congruence || (apply del_ext; auto).
Qed.

Definition rm_neigh (i : Z) (s s' : db) : Prop :=
  LI s' = del (fun y => fst (snd y) =? i) (LI s) /\ NI s' = del (fun y => y =? i) (NI s) /\ NO s' = del (fun y => fst y =? i) (NO s) /\
  NA s' = del (fun y => snd y =? i) (NA s) /\ s_next s' = s_next s /\ (forall x, In x (LA s') -> In x (LA s)) /\ (forall x, In x (H2 s') -> In x (H2 s)).
Lemma links_of_LI s i j : wf s -> (In j (map l_id (links_of s i)) <-> exists f, In (j, (i, f)) (LI s)).
Proof.
  intros W. unfold links_of. rewrite in_map_iff. split.
  - intros (l & E & H). apply filter_In in H. destruct H as [H1 H2]. apply Z.eqb_eq in H2. exists (l_if l). apply in_LI in H1. congruence.
  - intros (f & H). unfold LI in H. apply in_map_iff in H. destruct H as (l & E & H). exists l. split; [congruence|].
    apply filter_In. split; auto. apply Z.eqb_eq. congruence.
Qed.
Lemma neighbor_remove_ok s i : wf s -> In i (NI s) -> exists s', neighbor_remove s i = Ok s' /\ wf s' /\ ctx s s' /\ rm_neigh i s s'.
Proof.
  intros W I. unfold neighbor_remove.
  destruct (n_disconnect_ok s i W I) as (s1 & -> & W1 & C1 & S1 & Z1 & F1). cbn [rbind].
  destruct (links_remove_ok (map l_id (links_of s1 i)) s1 W1) as (s2 & -> & W2 & C2 & Q1 & Q2 & Q3 & Q4 & Q5 & Q6 & Q7 & Q8).
  { unfold links_of. pose proof (NoDup_map_del l_id (fun l => negb (l_n l =? i)) (s_l s1) (w_l _ W1)) as X.
    unfold del in X. rewrite (filter_ext _ (fun l => l_n l =? i)) in X; auto. intros l. apply negb_involutive. }
  { intros j Hj. apply links_of_LI in Hj; auto. destruct Hj as (f & Hj). eapply LI_LK; eauto. }
  cbn [rbind]. eexists. split; [reflexivity|].
  set (s3 := set_n (set_na s2 (del (fun x => na_n x =? i) (s_na s2))) (del (is_n i) (s_n (set_na s2 (del (fun x => na_n x =? i) (s_na s2)))))).
  assert (E0 : LI s2 = del (fun y => fst (snd y) =? i) (LI s1)).
  { rewrite Q1. apply del_ext. intros [j [n f]] H. cbn [fst snd]. apply eq_iff_eq_true. rewrite hit_In, Z.eqb_eq, links_of_LI by auto. split.
    - intros (f' & H'). pose proof (LI_fun _ _ _ _ W1 H H'). congruence.
    - intros ->. eauto. }
  assert (E1 : NI s3 = del (fun y => y =? i) (NI s2)) by (apply map_del; reflexivity).
  assert (E2 : NO s3 = del (fun y => fst y =? i) (NO s2)) by (apply map_del; reflexivity).
  assert (E3 : ND s3 = del (fun y => fst y =? i) (ND s2)) by (apply map_del; reflexivity).
  assert (E4 : NA s3 = del (fun y => snd y =? i) (NA s2)) by (apply map_del; reflexivity).
  assert (E5 : LI s3 = LI s2) by reflexivity.
  split; [|split].
  - destruct W2 as [V1 V2 V3 V4 V5 V6 V7 V8 V9 V10 V11 V12 V13 V14]. constructor; auto.
    + rewrite E1. now apply NoDup_del.
    + rewrite E1. intros j H. apply in_del in H. apply V2. tauto.
    + rewrite E1, E5. intros j n f H. split; [|eapply V5; eauto]. apply in_del. split; [eapply V5; eauto|].
      rewrite E0 in H. apply in_del in H. tauto.
    + rewrite E4. now apply NoDup_map_del.
    + rewrite E4, E1. intros a n H. apply in_del in H. apply in_del. destruct H. split; eauto.
    + rewrite E2. intros j k a H1 H2. apply in_del in H1, H2. apply V12; tauto.
    + rewrite E3. intros j p H. apply in_del in H. destruct H as [H1 H2]. assert (H1' := H1). rewrite Q4 in H1'. destruct (F1 _ _ H1').
      apply in_del. split; auto. cbn. now apply Z.eqb_neq.
  - eapply ctx_trans; [exact C1|]. eapply ctx_trans; [exact C2|]. ctx0.
  - unfold rm_neigh. destruct S1 as [T1 T2 T3 T4 T5 T6 T7 T8 T9]. rewrite E5, E0, T3, E1, Q2, T1, E2, Q3, T2, E4, Q5, T5. repeat split.
    + change (s_next s3) with (s_next s2). congruence.
    + change (LA s3) with (LA s2). rewrite Q7. intros x H. apply in_del in H. rewrite <- T6. tauto.
    + change (H2 s3) with (H2 s2). rewrite Q8. intros x H. apply in_del in H. rewrite <- T7. tauto.
Qed.

(** ** Adding *)
Lemma map_snoc {A B} (f : A -> B) l x : map f (l ++ [x]) = map f l ++ [f x].
Proof. now rewrite map_app. Qed.
Lemma neighbor_add_ok s : wf s -> let s' := fst (neighbor_add s) in
  wf s' /\ ctx s s' /\ snd (neighbor_add s) = s_next s /\ NI s' = NI s ++ [s_next s] /\ NO s' = NO s ++ [(s_next s, UNSPEC)] /\ LI s' = LI s /\ NA s' = NA s /\ LA s' = LA s /\ H2 s' = H2 s.
Proof.
  intros W s'.
  assert (E1 : NI s' = NI s ++ [s_next s]) by exact (map_snoc n_id (s_n s) _).
  assert (E2 : NO s' = NO s ++ [(s_next s, UNSPEC)]) by exact (map_snoc (fun n => (n_id n, n_orig n)) (s_n s) _).
  assert (E3 : ND s' = ND s ++ [(s_next s, None)]) by exact (map_snoc (fun n => (n_id n, n_dual n)) (s_n s) _).
  split; [|split; [ctx0|]]; [|repeat split; auto].
  destruct W as [V1 V2 V3 V4 V5 V6 V7 V8 V9 V10 V11 V12 V13 V14]. constructor; auto.
  - rewrite E1. apply NoDup_snoc; auto. intros H. apply V2 in H. lia.
  - rewrite E1. intros i H. apply in_app_iff in H. cbn. destruct H as [H | [<- | []]]; [apply V2 in H|]; lia.
  - intros i H. cbn. apply V4 in H. lia.
  - rewrite E1. intros i n f H. rewrite in_app_iff. destruct (V5 _ _ _ H). auto.
  - rewrite E1. intros a n H. rewrite in_app_iff. left. eauto.
  - rewrite E2. intros i j a Hi Hj A. apply in_app_iff in Hi, Hj.
    destruct Hi as [Hi | [Hi | []]], Hj as [Hj | [Hj | []]]; [eauto|injection Hj as <- <-; exfalso; apply A; reflexivity|injection Hi as <- <-; exfalso; apply A; reflexivity|congruence].
  - rewrite E3. intros i p H. apply in_app_iff in H. destruct H as [H | [H | []]]; [|discriminate]. apply in_app_iff. left. auto.
Qed.
Lemma link_add_ok s n f : wf s -> In n (NI s) -> In f (s_ifs s) -> exists s', link_add s n f = Ok (s', s_next s) /\
  wf s' /\ ctx s s' /\ NI s' = NI s /\ NO s' = NO s /\ LI s' = LI s ++ [(s_next s, (n, f))] /\ NA s' = NA s /\ LA s' = LA s /\ H2 s' = H2 s.
Proof.
  intros W Hn Hf. unfold link_add. destruct (get_n_ok s n Hn) as (x & -> & _). cbn [rbind]. rewrite chk_if_ok by auto. cbn [rbind].
  eexists. split; [reflexivity|]. match goal with |- wf ?x /\ _ => set (s' := x) end.
  assert (E1 : LK s' = LK s ++ [s_next s]) by exact (map_snoc l_id (s_l s) _).
  assert (E2 : LI s' = LI s ++ [(s_next s, (n, f))]) by exact (map_snoc (fun l => (l_id l, (l_n l, l_if l))) (s_l s) _).
  assert (E3 : LD s' = LD s ++ [(s_next s, None)]) by exact (map_snoc (fun l => (l_id l, l_dual l)) (s_l s) _).
  split; [|split; [ctx0|]]; [|repeat split; auto].
  destruct W as [V1 V2 V3 V4 V5 V6 V7 V8 V9 V10 V11 V12 V13 V14]. constructor; auto.
  - intros i H. cbn. apply V2 in H. lia.
  - rewrite E1. apply NoDup_snoc; auto. intros H. apply V4 in H. lia.
  - rewrite E1. intros i H. apply in_app_iff in H. cbn. destruct H as [H | [<- | []]]; [apply V4 in H|]; lia.
  - rewrite E2. intros i m g H. apply in_app_iff in H. destruct H as [H | [H | []]]; [eapply V5; eauto|injection H as <- <- <-; auto].
  - rewrite E2. intros g a l H. destruct (V9 _ _ _ H) as (m & Hm). exists m. apply in_app_iff. auto.
  - rewrite E1. intros l a H. apply in_app_iff. left. eauto.
  - rewrite E3. intros i p H. apply in_app_iff in H. destruct H as [H | [H | []]]; [|discriminate]. apply in_app_iff. left. auto.
Qed.
Lemma naddr_get_NA s a x : naddr_get s a = Some x -> In x (s_na s) /\ na_addr x = a /\ In (a, na_n x) (NA s).
Proof.
  intros H. apply find_some in H. destruct H as [H1 H2]. apply addr_eqb_eq in H2. subst. split; auto. split; auto.
  unfold NA. apply (in_map (fun x => (na_addr x, na_n x))) in H1. exact H1.
Qed.
Lemma naddr_get_None s a : naddr_get s a = None -> ~ In a (map fst (NA s)).
Proof.
  unfold NA. rewrite map_map. cbn. intros H C. apply in_map_iff in C. destruct C as (x & <- & C).
  apply (find_none _ _ H) in C. unfold is_na in C. rewrite addr_eqb_refl in C. discriminate.
Qed.
Lemma laddr_get_LA s f a x : laddr_get s f a = Some x -> In x (s_la s) /\ la_addr x = a /\ la_if x = f /\ In ((f, a), la_l x) (LA s).
Proof.
  intros H. apply find_some in H. destruct H as [H1 H2]. unfold is_la in H2. apply andb_true_iff in H2. destruct H2 as [H2 H3].
  apply addr_eqb_eq in H3. apply Z.eqb_eq in H2. subst. split; auto. split; auto. split; auto.
  unfold LA. apply (in_map (fun x => ((la_if x, la_addr x), la_l x))) in H1. exact H1.
Qed.
Lemma laddr_get_None s f a : laddr_get s f a = None -> ~ In (f, a) (map fst (LA s)).
Proof.
  unfold LA. rewrite map_map. cbn. intros H C. apply in_map_iff in C. destruct C as (x & E & C).
  apply (find_none _ _ H) in C. unfold is_la in C. injection E as <- <-. rewrite Z.eqb_refl, addr_eqb_refl in C. discriminate.
Qed.
Lemma naddr_add_ok s n a : wf s -> In n (NI s) -> naddr_get s a = None -> exists s', naddr_add s n a = Ok s' /\
  wf s' /\ ctx s s' /\ NI s' = NI s /\ NO s' = NO s /\ LI s' = LI s /\ NA s' = NA s ++ [(a, n)] /\ LA s' = LA s /\ H2 s' = H2 s.
Proof.
  intros W Hn G. unfold naddr_add. destruct (get_n_ok s n Hn) as (x & -> & _). cbn [rbind].
  eexists. split; [reflexivity|]. match goal with |- wf ?x /\ _ => set (s' := x) end.
  assert (E1 : NA s' = NA s ++ [(a, n)]) by exact (map_snoc (fun x => (na_addr x, na_n x)) (s_na s) _).
  split; [|split; [ctx0|]]; [|repeat split; auto]. apply naddr_get_None in G.
  destruct W as [V1 V2 V3 V4 V5 V6 V7 V8 V9 V10 V11 V12 V13 V14]. constructor; auto.
  - rewrite E1, map_snoc. apply NoDup_snoc; auto.
  - rewrite E1. intros b m H. apply in_app_iff in H. destruct H as [H | [H | []]]; [eauto|injection H as <- <-; auto].
Qed.
Lemma laddr_add_ok s i n f a : wf s -> In (i, (n, f)) (LI s) -> laddr_get s f a = None -> exists s', laddr_add s i a = Ok s' /\
  wf s' /\ ctx s s' /\ NI s' = NI s /\ NO s' = NO s /\ LI s' = LI s /\ NA s' = NA s /\ LA s' = LA s ++ [((f, a), i)] /\ H2 s' = H2 s.
Proof.
  intros W Hi G. unfold laddr_add. destruct (link_full s i n f W Hi) as (l & -> & Il & El & En & Ef & Kn & Kf). cbn [rbind].
  rewrite En, Ef. destruct (get_n_ok s n Kn) as (x & -> & _). cbn [rbind]. rewrite chk_if_ok by auto. cbn [rbind].
  eexists. split; [reflexivity|]. match goal with |- wf ?x /\ _ => set (s' := x) end.
  assert (E1 : LA s' = LA s ++ [((f, a), i)]) by exact (map_snoc (fun x => ((la_if x, la_addr x), la_l x)) (s_la s) _).
  split; [|split; [ctx0|]]; [|repeat split; auto]. apply laddr_get_None in G.
  destruct W as [V1 V2 V3 V4 V5 V6 V7 V8 V9 V10 V11 V12 V13 V14]. constructor; auto.
  - rewrite E1, map_snoc. apply NoDup_snoc; auto.
  - rewrite E1. intros g b m H. apply in_app_iff in H. destruct H as [H | [H | []]]; [eauto|injection H as <- <- <-; eauto].
Qed.
Lemma l2hop_add_ok s i a : wf s -> In i (LK s) -> ~ In (i, a) (H2 s) -> exists s', l2hop_add s i a = Ok s' /\
  wf s' /\ ctx s s' /\ NI s' = NI s /\ NO s' = NO s /\ LI s' = LI s /\ NA s' = NA s /\ LA s' = LA s /\ H2 s' = H2 s ++ [(i, a)].
Proof.
  intros W Hi G. unfold l2hop_add. destruct (link_full' s i W Hi) as (l & -> & Il & El & Kn & Kf). cbn [rbind].
  rewrite chk_if_ok by auto. cbn [rbind].
  eexists. split; [reflexivity|]. match goal with |- wf ?x /\ _ => set (s' := x) end.
  assert (E1 : H2 s' = H2 s ++ [(i, a)]) by exact (map_snoc (fun x => (h2_l x, h2_addr x)) (s_h s) _).
  split; [|split; [ctx0|]]; [|repeat split; auto].
  destruct W as [V1 V2 V3 V4 V5 V6 V7 V8 V9 V10 V11 V12 V13 V14]. constructor; auto.
  - rewrite E1. apply NoDup_snoc; auto.
  - rewrite E1. intros g b H. apply in_app_iff in H. destruct H as [H | [H | []]]; [eauto|injection H as <- <-; auto].
Qed.
(** ** Moving *)
Lemma naddr_move_ok s n a : wf s -> In n (NI s) -> let s' := naddr_move s n a in
  wf s' /\ ctx s s' /\ NI s' = NI s /\ NO s' = NO s /\ LI s' = LI s /\ LA s' = LA s /\ H2 s' = H2 s /\
  NA s' = map (fun x => if addr_eqb (fst x) a then (fst x, n) else x) (NA s).
Proof.
  intros W Hn s'.
  assert (E1 : NA s' = map (fun x => if addr_eqb (fst x) a then (fst x, n) else x) (NA s)).
  { unfold s', naddr_move, NA, upd. cbn [set_na s_na]. rewrite !map_map. apply map_ext. intros x. unfold is_na. cbn [fst].
    destruct (addr_eqb (na_addr x) a); reflexivity. }
  split; [|split; [ctx0|]]; [|repeat split; auto].
  destruct W as [V1 V2 V3 V4 V5 V6 V7 V8 V9 V10 V11 V12 V13 V14]. constructor; auto.
  - rewrite E1, map_map. rewrite (map_ext _ fst); auto. intros [b m]. cbn. destruct (addr_eqb b a); reflexivity.
  - rewrite E1. intros b m H. apply in_map_iff in H. destruct H as ([b' m'] & E & H). cbn [fst] in E.
    change (NI s') with (NI s). destruct (addr_eqb b' a); injection E as <- <-; eauto.
Qed.
Lemma laddr_move_ok s i n f x : wf s -> In (i, (n, f)) (LI s) -> In x (s_la s) -> la_if x = f -> exists s', laddr_move s i x = Ok s' /\
  wf s' /\ ctx s s' /\ NI s' = NI s /\ NO s' = NO s /\ LI s' = LI s /\ NA s' = NA s /\ H2 s' = H2 s /\
  LA s' = map (fun y => if (fst (fst y) =? f) && addr_eqb (snd (fst y)) (la_addr x) then (fst y, i) else y) (LA s).
Proof.
  intros W Hi Hx Fx. unfold laddr_move. destruct (link_full s i n f W Hi) as (l & -> & Il & El & En & Ef & Kn & Kf). cbn [rbind].
  assert (Hl : In ((la_if x, la_addr x), la_l x) (LA s)) by (unfold LA; apply (in_map (fun x => ((la_if x, la_addr x), la_l x))) in Hx; exact Hx).
  destruct (w_la2 s W _ _ _ Hl) as (m & Hm). destruct (link_full s (la_l x) m _ W Hm) as (l' & -> & Il' & El' & En' & Ef' & Kn' & Kf'). cbn [rbind].
  rewrite En, En'. destruct (get_n_ok s n Kn) as (x1 & -> & _). cbn [rbind]. destruct (get_n_ok s m Kn') as (x2 & -> & _). cbn [rbind].
  eexists. split; [reflexivity|]. match goal with |- wf ?x /\ _ => set (s' := x) end.
  assert (E1 : LA s' = map (fun y => if (fst (fst y) =? f) && addr_eqb (snd (fst y)) (la_addr x) then (fst y, i) else y) (LA s)).
  { unfold s', LA, upd. cbn [set_la s_la]. rewrite !map_map. apply map_ext. intros y. unfold is_la. cbn [fst snd].
    rewrite Fx. destruct ((la_if y =? f) && addr_eqb (la_addr y) (la_addr x)); reflexivity. }
  split; [|split; [ctx0|]]; [|repeat split; auto].
  destruct W as [V1 V2 V3 V4 V5 V6 V7 V8 V9 V10 V11 V12 V13 V14]. constructor; auto.
  - rewrite E1, map_map. rewrite (map_ext _ fst); auto. intros [b k]. cbn. destruct ((fst b =? f) && addr_eqb (snd b) (la_addr x)); reflexivity.
  - rewrite E1. intros g b k H. apply in_map_iff in H. destruct H as ([[g' b'] k'] & E & H). cbn [fst snd] in E.
    change (LI s') with (LI s). destruct ((g' =? f) && addr_eqb b' (la_addr x)) eqn:Q.
    + injection E as <- <- <-. apply andb_true_iff in Q. destruct Q as [Q _]. apply Z.eqb_eq in Q. subst. eauto.
    + injection E as <- <- <-. eauto.
Qed.

(** ** Operations that move no address *)
Record keep (s s' : db) : Prop := {
  k_wf : wf s'; k_ctx : ctx s s'; k_NI : NI s' = NI s; k_LI : LI s' = LI s; k_NA : NA s' = NA s; k_LA : LA s' = LA s
}.
Lemma keep_refl s : wf s -> keep s s.
Proof. intros W. constructor; auto using ctx_refl. Qed.
Lemma keep_trans a b c : keep a b -> keep b c -> keep a c.
Proof. intros [] []. constructor; auto; try congruence. eapply ctx_trans; eauto. Qed.
Lemma keep_LK s s' : keep s s' -> LK s' = LK s.
Proof. intros K. rewrite !LK_LI. f_equal. apply K. Qed.
Lemma same_keep s s' : wf s -> same s s' -> ctx s s' -> keep s s'.
Proof. intros W S C. constructor; auto; try apply S. eapply same_wf; eauto. Qed.
Lemma keep_upd_n s i f : wf s -> (forall n, n_id (f n) = n_id n /\ n_orig (f n) = n_orig n /\ n_dual (f n) = n_dual n) -> keep s (upd_n s i f).
Proof. intros W H. apply same_keep; auto. now apply same_upd_n. ctx0. Qed.
Lemma keep_upd_l s i f : wf s -> (forall l, l_id (f l) = l_id l /\ l_n (f l) = l_n l /\ l_if (f l) = l_if l /\ l_dual (f l) = l_dual l) -> keep s (upd_l s i f).
Proof. intros W H. apply same_keep; auto. now apply same_upd_l. ctx0. Qed.
Lemma keep_upd_na s p f : wf s -> (forall x, na_addr (f x) = na_addr x /\ na_n (f x) = na_n x) -> keep s (set_na s (upd p f (s_na s))).
Proof. intros W H. apply same_keep; auto. now apply same_upd_na. ctx0. Qed.
Lemma keep_upd_la s p f : wf s -> (forall x, la_addr (f x) = la_addr x /\ la_l (f x) = la_l x /\ la_if (f x) = la_if x) -> keep s (set_la s (upd p f (s_la s))).
Proof. intros W H. apply same_keep; auto. now apply same_upd_la. ctx0. Qed.
Lemma keep_upd_h s p f : wf s -> (forall x, h2_addr (f x) = h2_addr x /\ h2_l (f x) = h2_l x) -> keep s (set_h s (upd p f (s_h s))).
Proof. intros W H. apply same_keep; auto. now apply same_upd_h. ctx0. Qed.
Lemma keep_setid s : wf s -> keep s (bump_setid s).
Proof. intros W. apply same_keep; auto; constructor; reflexivity. Qed.
Lemma keep_del_h s p : wf s -> keep s (set_h s (del p (s_h s))).
Proof. intros W. constructor; try reflexivity; [now apply wf_del_h|ctx0]. Qed.

Lemma l2hops_remove_ok s p : wf s -> exists s', l2hops_remove s p = Ok s' /\ keep s s' /\ s' = set_h s (del p (s_h s)).
Proof.
  intros W. unfold l2hops_remove.
  assert (X : forall hs, (forall x, In x hs -> In x (s_h s)) ->
    fold_right (fun x r => if p x then do l <- get_l s (h2_l x); do _ <- chk_if s (l_if l); r else r) (Ok tt) hs = Ok tt).
  { induction hs as [|x hs IH]; intros H; cbn [fold_right]; auto. rewrite IH by (intros; apply H; now right).
    destruct (p x); auto. assert (In (h2_l x) (LK s)) as K.
    { apply (w_h2 s W) with (a := h2_addr x). unfold H2. apply (in_map (fun x => (h2_l x, h2_addr x))). apply H. now left. }
    destruct (link_full' s _ W K) as (l & -> & _ & _ & _ & F). cbn [rbind]. now rewrite chk_if_ok. }
  rewrite X by auto. cbn [rbind]. eexists. split; [reflexivity|]. split; auto. now apply keep_del_h.
Qed.
Lemma links_if_ok_ok s i : wf s -> links_if_ok s i = Ok tt.
Proof.
  intros W. unfold links_if_ok, links_of.
  assert (X : forall ls, (forall x, In x ls -> In x (s_l s)) -> fold_right (fun l r => do _ <- chk_if s (l_if l); r) (Ok tt) ls = Ok tt).
  { induction ls as [|x ls IH]; intros H; cbn [fold_right]; auto. rewrite IH by (intros; apply H; now right).
    rewrite chk_if_ok; auto. apply (w_li s W (l_id x) (l_n x) (l_if x)). apply in_LI. apply H. now left. }
  apply X. intros x H. apply filter_In in H. tauto.
Qed.
Lemma NO_set_orig s i a : NO (upd_n s i (n_set_orig a)) = set1 i a (NO s).
Proof.
  unfold NO, set1, upd_n, upd, is_n. cbn [set_n s_n]. rewrite !map_map. apply map_ext. intros n. cbn [fst].
  destruct (n_id n =? i); reflexivity.
Qed.
Lemma wf_set_orig s i a : wf s -> (a_af a <> 0 -> forall j, In (j, a) (NO s) -> j = i) -> keep s (upd_n s i (n_set_orig a)).
Proof.
  intros W U. set (s' := upd_n s i (n_set_orig a)).
  assert (E1 : NI s' = NI s) by (apply map_upd; reflexivity).
  assert (E2 : ND s' = ND s) by (apply map_upd; reflexivity).
  assert (E3 : NO s' = set1 i a (NO s)) by apply NO_set_orig.
  constructor; auto; try reflexivity; [|ctx0].
  destruct W as [V1 V2 V3 V4 V5 V6 V7 V8 V9 V10 V11 V12 V13 V14]. constructor; rewrite ?E1, ?E2; auto.
  rewrite E3. intros j k b Hj Hk A. apply in_set1 in Hj, Hk.
  destruct Hj as [(-> & -> & _) | (J1 & J2)], Hk as [(-> & K2 & _) | (K1 & K2)]; auto.
  - symmetry. auto.
  - subst b. auto.
  - eauto.
Qed.
Lemma neigh_by_orig_spec s a n : neigh_by_orig s a = Some n -> In n (s_n s) /\ n_orig n = a /\ a_af a <> 0.
Proof.
  intros H. apply find_some in H. destruct H as [H1 H2]. apply andb_true_iff in H2. destruct H2 as [H2 H3].
  apply negb_true_iff, Z.eqb_neq in H2. apply addr_eqb_eq in H3. subst. auto.
Qed.
Lemma neigh_by_orig_none s a i : neigh_by_orig s a = None -> a_af a <> 0 -> ~ In (i, a) (NO s).
Proof.
  intros H A C. unfold NO in C. apply in_map_iff in C. destruct C as (n & E & C). injection E as _ E.
  apply (find_none _ _ H) in C. rewrite E, addr_eqb_refl in C. apply Z.eqb_neq in A. rewrite A in C. discriminate.
Qed.
Lemma set_originator_ok s i a : wf s -> In i (NI s) -> exists s', set_originator s i a = Ok s' /\ keep s s'.
Proof.
  intros W I. unfold set_originator. destruct (get_n_ok s i I) as (n & E & In_ & D). rewrite E. cbn [rbind].
  destruct (addr_eqb (n_orig n) a) eqn:Q; [exists s; auto using keep_refl|].
  rewrite links_if_ok_ok by auto. replace (if a_af (n_orig n) =? 0 then Ok tt else Ok tt) with (Ok tt) by (destruct (a_af (n_orig n) =? 0); auto).
  cbn [rbind]. set (t := upd_n s i (n_set_orig UNSPEC)).
  assert (Wt : keep s t) by (apply wf_set_orig; auto; intros A; exfalso; apply A; reflexivity).
  assert (X : exists s1, match neigh_by_orig t a with
              | Some n2 => do _ <- links_if_ok s (n_id n2); Ok (upd_n s (n_id n2) (n_set_orig UNSPEC)) | None => Ok s end = Ok s1 /\
            keep s s1 /\ (a_af a <> 0 -> forall j, In (j, a) (NO s1) -> j = i)).
  { destruct (neigh_by_orig t a) as [n2|] eqn:F.
    - rewrite links_if_ok_ok by auto. cbn [rbind]. eexists. split; [reflexivity|].
      split; [apply wf_set_orig; auto; intros A; exfalso; apply A; reflexivity|]. intros A j Hj. rewrite NO_set_orig in Hj.
      apply in_set1 in Hj. destruct Hj as [(_ & -> & _) | (N2 & Hj)]; [exfalso; apply A; reflexivity|].
      apply neigh_by_orig_spec in F. destruct F as (F1 & F2 & _). apply in_NO in F1. rewrite F2 in F1. unfold t in F1. rewrite NO_set_orig in F1.
      apply in_set1 in F1. destruct F1 as [(_ & -> & _) | (F3 & F4)]; [exfalso; apply A; reflexivity|].
      exfalso. apply N2. eapply (w_o s W); eauto.
    - eexists. split; [reflexivity|]. split; [now apply keep_refl|]. intros A j Hj.
      destruct (Z.eq_dec j i) as [-> | N]; auto. exfalso. eapply neigh_by_orig_none; eauto. unfold t. rewrite NO_set_orig.
      apply in_set1. right. eauto. }
  destruct X as (s1 & -> & K1 & U). cbn [rbind]. rewrite links_if_ok_ok by apply K1.
  replace (if a_af a =? 0 then Ok tt else Ok tt) with (Ok tt) by (destruct (a_af a =? 0); auto). cbn [rbind].
  eexists. split; [reflexivity|]. eapply keep_trans; [exact K1|]. apply wf_set_orig; auto. apply K1.
Qed.

(** ** Status of links *)
Ltac triv := intros; repeat split; reflexivity.
Lemma calc_status_ok s l : wf s -> In l (s_l s) -> exists st, calc_status s l = Ok st.
Proof.
  intros W H. unfold calc_status. apply in_LI in H. destruct (w_li s W _ _ _ H) as (Kn & Kf).
  rewrite chk_if_ok by auto. cbn [rbind]. destruct (get_n_ok s _ Kn) as (n & -> & _). cbn [rbind].
  repeat match goal with |- context [if ?b then _ else _] => destruct b end; eauto.
Qed.
Lemma now_symmetric_ok s i : wf s -> In i (LK s) -> exists s', now_symmetric s i = Ok s' /\ keep s s'.
Proof.
  intros W I. unfold now_symmetric. destruct (link_full' s i W I) as (l & -> & Il & Dl & Kn & Kf). cbn [rbind].
  destruct (get_n_ok s _ Kn) as (n & -> & _). cbn [rbind].
  assert (K : keep s (upd_n s (l_n l) (n_set_sym (n_sym n + 1)))) by (apply keep_upd_n; [auto|triv]).
  destruct (n_sym n + 1 =? 1); eexists; (split; [reflexivity|]); auto.
  eapply keep_trans; [exact K|]. eapply keep_trans; [|apply keep_setid].
  - unfold naddr_not_lost. apply keep_upd_na; [apply K|triv].
  - unfold naddr_not_lost. apply keep_upd_na; [apply K|triv].
Qed.
Lemma not_symmetric_ok s i : wf s -> In i (LK s) -> exists s', not_symmetric s i = Ok s' /\ keep s s'.
Proof.
  intros W I. unfold not_symmetric. destruct (link_full' s i W I) as (l & -> & Il & Dl & Kn & Kf). cbn [rbind].
  destruct (l2hops_remove_ok s (fun x => h2_l x =? i) W) as (s1 & -> & K1 & _). cbn [rbind].
  rewrite <- (k_NI _ _ K1) in Kn. destruct (get_n_ok s1 _ Kn) as (n & -> & _). cbn [rbind].
  set (s2 := upd_n s1 (l_n l) (n_set_sym (n_sym n - 1))).
  assert (K2 : keep s s2) by (eapply keep_trans; [exact K1|]; apply keep_upd_n; [apply K1|triv]).
  destruct (n_sym n - 1 =? 0); [|eexists; split; [reflexivity|]; auto].
  rewrite chk_if_ok by (rewrite (x_ifs _ _ (k_ctx _ _ K2)); auto). cbn [rbind]. eexists. split; [reflexivity|].
  eapply keep_trans; [exact K2|]. unfold naddr_set_lost. eapply keep_trans; [|apply keep_setid]; apply keep_upd_na; (apply K2 || triv).
Qed.
Lemma update_status_ok s i : wf s -> In i (LK s) -> exists s', update_status s i = Ok s' /\ keep s s'.
Proof.
  intros W I. unfold update_status. destruct (link_full' s i W I) as (l & -> & Il & Dl & Kn & Kf). cbn [rbind].
  destruct (calc_status_ok s l W Il) as (st & ->). cbn [rbind].
  assert (K1 : keep s (upd_l s i (l_set_status st))) by (apply keep_upd_l; [auto|triv]).
  set (s1 := upd_l s i (l_set_status st)) in *.
  assert (X : exists s2, (if (l_status l =? SYMMETRIC) && negb (st =? SYMMETRIC) then not_symmetric s1 i else Ok s1) = Ok s2 /\ keep s s2).
  { destruct (_ && _); [|eauto]. destruct (not_symmetric_ok s1 i) as (s2 & E & K2); [apply K1|rewrite (keep_LK _ _ K1); auto|].
    exists s2. split; auto. eapply keep_trans; eauto. }
  destruct X as (s2 & -> & K2). cbn [rbind].
  assert (X : exists s3, (if negb (l_status l =? SYMMETRIC) && (st =? SYMMETRIC) then now_symmetric s2 i else Ok s2) = Ok s3 /\ keep s s3).
  { destruct (_ && _); [|eauto]. destruct (now_symmetric_ok s2 i) as (s3 & E & K3); [apply K2|rewrite (keep_LK _ _ K2); auto|].
    exists s3. split; auto. eapply keep_trans; eauto. }
  destruct X as (s3 & -> & K3). cbn [rbind]. eauto.
Qed.
Lemma set_unsymmetric_ok s i : wf s -> In i (LK s) -> exists s', set_unsymmetric s i = Ok s' /\ keep s s'.
Proof.
  intros W I. unfold set_unsymmetric. destruct (link_full' s i W I) as (l & -> & Il & Dl & Kn & Kf). cbn [rbind].
  assert (X : exists s2, (if l_status l =? SYMMETRIC then not_symmetric s i else Ok s) = Ok s2 /\ keep s s2).
  { destruct (_ =? _); [now apply not_symmetric_ok|eauto using keep_refl]. }
  destruct X as (s2 & -> & K2). cbn [rbind].
  assert (K3 : keep s2 (upd_l s2 i (l_set_sym None))) by (apply keep_upd_l; [apply K2|triv]).
  destruct (l2hops_remove_ok (upd_l s2 i (l_set_sym None)) (fun x => h2_l x =? i)) as (s4 & -> & K4 & _); [apply K3|].
  exists s4. split; auto. eapply keep_trans; [exact K2|]. eapply keep_trans; eauto.
Qed.
Lemma unsym_links_ok ids : forall s, wf s -> (forall i, In i ids -> In i (LK s)) -> exists s', unsym_links s ids = Ok s' /\ keep s s'.
Proof.
  induction ids as [|i ids IH]; intros s W H; cbn [unsym_links]; [eauto using keep_refl|].
  destruct (set_unsymmetric_ok s i W) as (s1 & -> & K1); [apply H; now left|]. cbn [rbind].
  destruct (IH s1) as (s2 & E2 & K2); [apply K1|intros j Hj; rewrite (keep_LK _ _ K1); apply H; now right|].
  exists s2. split; auto. eapply keep_trans; eauto.
Qed.
Lemma cb_link_vtime_ok s i : wf s -> In i (LK s) -> exists s', cb_link_vtime s i = Ok s' /\ wf s' /\ ctx s s'.
Proof.
  intros W I. unfold cb_link_vtime. destruct (link_full' s i W I) as (l & -> & Il & Dl & Kn & Kf). cbn [rbind].
  assert (X : exists s2, (if l_status l =? SYMMETRIC then not_symmetric s i else Ok s) = Ok s2 /\ keep s s2).
  { destruct (_ =? _); [now apply not_symmetric_ok|eauto using keep_refl]. }
  destruct X as (s2 & -> & K2). cbn [rbind].
  destruct (link_remove_ok s2 i) as (s3 & -> & W3 & C3 & R); [apply K2|rewrite (keep_LK _ _ K2); auto|]. cbn [rbind].
  assert (Kn3 : In (l_n l) (NI s3)) by (destruct R as (_ & -> & _); rewrite (k_NI _ _ K2); auto).
  assert (C : ctx s s3) by (eapply ctx_trans; [apply K2|exact C3]).
  destruct (links_of s3 (l_n l)); [|eauto]. destruct (neighbor_remove_ok s3 _ W3 Kn3) as (s4 & E & W4 & C4 & _).
  exists s4. split; auto. split; auto. eapply ctx_trans; eauto.
Qed.
