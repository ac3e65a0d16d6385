(** Properties of the import of layer2 addresses: C165. *)
From Verif Require Import Base CodecModel L2impModel L2impSpec.

Lemma str_eqb_eq a : forall b, str_eqb a b = true <-> a = b.
Proof.
  induction a as [|x a IH]; intros [|y b]; cbn; split; intro H; try discriminate; try reflexivity.
  - apply Bool.andb_true_iff in H. destruct H as [X Y]. apply Z.eqb_eq in X. apply IH in Y. now subst.
  - injection H as -> ->. rewrite Z.eqb_refl. now apply IH.
Qed.
Lemma prefix_iff (q o : list Z) : firstn (length q) o = q <-> exists r, o = q ++ r.
Proof.
  split.
  - intro H. exists (skipn (length q) o). rewrite <- H at 1. symmetry. apply firstn_skipn.
  - intros (r & ->). rewrite firstn_app, Nat.sub_diag, firstn_all. cbn. apply app_nil_r.
Qed.
Lemma matching_iff o p : is_matching o p = true <-> matching o p.
Proof.
  unfold is_matching, matching. destruct (str_eqb o p) eqn:E.
  - apply str_eqb_eq in E. split; auto.
  - assert (N : o <> p) by (intro H; apply str_eqb_eq in H; congruence).
    destruct p as [|x p'] using rev_ind.
    + cbn. split; [discriminate|]. intros [H|(q & r & H & _)]; [contradiction|]. now destruct q.
    + clear IHp'. rewrite last_last, removelast_last, app_length. cbn [length].
      replace (length p' + 1 - 1)%nat with (length p') by lia.
      assert (Z0 : (zlen (p' ++ [x]) =? 0) = false).
      { unfold zlen. rewrite app_length. cbn [length]. apply Z.eqb_neq. lia. }
      rewrite Z0. cbn [orb]. destruct (x =? 42) eqn:X; cbn [negb].
      * apply Z.eqb_eq in X. subst x. rewrite str_eqb_eq, prefix_iff. split.
        -- intros (r & ->). right. exists p', r. auto.
        -- intros [H|(q & r & H & ->)]; [contradiction|]. apply app_inj_tail in H. destruct H as [-> _]. now exists r.
      * split; [discriminate|]. intros [H|(q & r & H & _)]; [contradiction|].
        apply app_inj_tail in H. destruct H as [_ ->]. discriminate.
Qed.
Definition covb (s : sec) (d : Z) (n : nip) : bool :=
  is_matching (n_origin n) (c_name s) && ((c_domain s =? d) || (c_domain s <? 0)).
Lemma covb_iff s d n : covb s d n = true <-> covers s d n.
Proof. unfold covb, covers. rewrite Bool.andb_true_iff, Bool.orb_true_iff, matching_iff, Z.eqb_eq, Z.ltb_lt. reflexivity. Qed.
Fixpoint lastcov (ss : list sec) (d : Z) (n : nip) : option sec :=
  match ss with
  | [] => None
  | s :: r => match lastcov r d n with Some x => Some x | None => if covb s d n then Some s else None end
  end.
Lemma lastcov_none ss d n : lastcov ss d n = None <-> forall x, In x ss -> ~ covers x d n.
Proof.
  induction ss as [|s r IH]; cbn; [split; auto|].
  destruct (lastcov r d n) as [y|].
  - split; [discriminate|]. intro H. enough (X : Some y = None) by discriminate. apply IH. intros x Hx. apply H. now right.
  - destruct (covb s d n) eqn:C.
    + split; [discriminate|]. intro H. exfalso. apply (H s); [now left|]. now apply covb_iff.
    + split; [|reflexivity]. intros _ x [<-|Hx].
      * intro H. apply covb_iff in H. congruence.
      * now apply IH.
Qed.
Lemma lastcov_some ss d n s : lastcov ss d n = Some s <->
  exists p r, ss = p ++ s :: r /\ covers s d n /\ forall x, In x r -> ~ covers x d n.
Proof.
  induction ss as [|y r IH]; cbn.
  - split; [discriminate|]. intros (p & r & H & _). now destruct p.
  - destruct (lastcov r d n) as [z|] eqn:L.
    + split.
      * intro H. destruct (proj1 IH H) as (p & q & -> & C). exists (y :: p), q. auto.
      * intros (p & q & H & C & N). destruct p as [|a p]; injection H as H1 H2.
        -- exfalso. subst q. apply lastcov_none in N. congruence.
        -- apply IH. exists p, q. auto.
    + split.
      * destruct (covb y d n) eqn:C; [|discriminate]. intro H. injection H as <-.
        exists [], r. split; [reflexivity|]. split; [now apply covb_iff|]. now apply lastcov_none.
      * intros (p & q & H & C & N). destruct p as [|a p]; injection H as H1 H2.
        -- subst. apply covb_iff in C. now rewrite C.
        -- exfalso. subst r. apply (proj1 (lastcov_none _ d n) L s); [|exact C]. apply in_or_app. right. now left.
Qed.
Lemma fold_set ip (g : Z -> option (Z * Z)) ds : forall a d i,
  fold_left (fun a d => set d ip (g d) a) ds a d i =
  if (i =? ip) && existsb (Z.eqb d) ds then g d else a d i.
Proof.
  induction ds as [|x r IH]; intros a d i; cbn [fold_left existsb].
  - now rewrite Bool.andb_false_r.
  - rewrite IH. unfold set. destruct (i =? ip); cbn [andb]; [|now rewrite Bool.andb_false_r].
    rewrite Bool.andb_true_r. destruct (d =? x) eqn:E; cbn [orb].
    + apply Z.eqb_eq in E. subst x. now destruct (existsb (Z.eqb d) r).
    + reflexivity.
Qed.
Lemma each_eq doms n f ss : secs_ok doms ss -> forall a, exists a', each doms ss n f a = Some a' /\
  forall d i, In d doms -> a' d i = if i =? n_ip n then match lastcov ss d n with Some s => f s d | None => a d i end else a d i.
Proof.
  induction ss as [|s r IH]; intros OK a.
  - exists a. split; [reflexivity|]. intros d i _. cbn. now destruct (i =? n_ip n).
  - assert (OKr : secs_ok doms r) by (intros x Hx; apply OK; now right).
    cbn [each lastcov]. unfold covb at 1. destruct (is_matching (n_origin n) (c_name s)) eqn:M; cbn [andb].
    + assert (T : exists ds, targets doms s = Some ds /\ forall d, In d doms ->
        existsb (Z.eqb d) ds = (c_domain s =? d) || (c_domain s <? 0)).
      { unfold targets. destruct (c_domain s >=? 0) eqn:G.
        - destruct (OK s (or_introl eq_refl)) as [L|L]; [lia|].
          assert (X : existsb (Z.eqb (c_domain s)) doms = true)
            by (apply existsb_exists; exists (c_domain s); split; [exact L|apply Z.eqb_refl]).
          rewrite X. exists [c_domain s]. split; [reflexivity|]. intros d _. cbn.
          assert (Y : (c_domain s <? 0) = false) by lia. rewrite Y, Bool.orb_false_r, Bool.orb_false_r. apply Z.eqb_sym.
        - exists doms. split; [reflexivity|]. intros d Hd.
          assert (Y : (c_domain s <? 0) = true) by lia. rewrite Y, Bool.orb_true_r.
          apply existsb_exists. exists d. split; [exact Hd|apply Z.eqb_refl]. }
      destruct T as (ds & -> & T).
      destruct (IH OKr (fold_left (fun a d => set d (n_ip n) (f s d) a) ds a)) as (a' & E & P).
      exists a'. split; [exact E|]. intros d i Hd. rewrite (P d i Hd). rewrite (fold_set (n_ip n) (f s)).
      rewrite (T d Hd). destruct (i =? n_ip n); cbn [andb]; [|reflexivity].
      destruct (lastcov r d n); [reflexivity|]. now destruct ((c_domain s =? d) || (c_domain s <? 0)).
    + destruct (IH OKr a) as (a' & E & P). exists a'. split; [exact E|]. intros d i Hd. rewrite (P d i Hd).
      destruct (i =? n_ip n); [|reflexivity]. now destruct (lastcov r d n).
Qed.
Definition val (cm : Z -> nip -> Z) (ss : list sec) (d : Z) (n : nip) : option (Z * Z) :=
  match lastcov ss d n with Some s => Some (metric_of cm s d n, c_dist s) | None => None end.
Lemma val_iff cm ss d n v : val cm ss d n = Some v <-> wanted cm ss d n v.
Proof.
  unfold val, wanted. split.
  - destruct (lastcov ss d n) as [s|] eqn:L; [|discriminate]. intro H. injection H as <-.
    apply lastcov_some in L. destruct L as (p & r & A & B & C). exists p, s, r. auto.
  - intros (p & s & r & A & B & C & ->).
    rewrite (proj2 (lastcov_some ss d n s)) by (exists p, r; auto). reflexivity.
Qed.
Lemma run_app cm doms a b : forall st, run cm doms st (a ++ b) =
  match run cm doms st a with Some st' => run cm doms st' b | None => None end.
Proof. induction a as [|o r IH]; intro st; [reflexivity|]. cbn [app run]. destruct (step cm doms st o); [apply IH|reflexivity]. Qed.

(** ** C165: imported layer2 addresses *)

(** with sections configured before the first address comes, and for different addresses:
    after every history the attached networks are exactly the addresses present that a section is
    for, with metric and distance of the last such section *)
Lemma exact cm doms ss os ns : secs_ok doms ss -> history os ns ->
  exists a ns', run cm doms (mkState ss [] none) os = Some (mkState ss ns' a) /\
  (forall i j p q x y, ns = p ++ x :: q -> In y (p ++ q) -> i = n_ip x -> j = n_ip y -> i <> j) /\
  forall d i, In d doms -> a d i = match find (fun n => n_ip n =? i) ns with Some n => val cm ss d n | None => None end.
Proof.
  intros OK H. induction H as [|os ns n _ IH N|os n p r _ IH].
  - exists none, []. split; [reflexivity|]. split; [|reflexivity]. intros i j p q x y E. now destruct p.
  - destruct IH as (a & ns' & R & U & V).
    destruct (each_eq doms n (fun s d => Some (metric_of cm s d n, c_dist s)) ss OK a) as (a' & E & P).
    exists a', (n :: ns'). split; [|split].
    + rewrite run_app, R. cbn [run step s_secs s_ann s_nips]. unfold ip_added. now rewrite E.
    + intros i j p q x y X Y -> ->. destruct p as [|z p]; injection X as X1 X2.
      * subst. cbn in Y. intro Q. apply (N y Y). now symmetry.
      * subst z. destruct Y as [<-|Y].
        -- apply N. rewrite X2. apply in_or_app. right. now left.
        -- exact (U _ _ p q x y X2 Y eq_refl eq_refl).
    + intros d i Hd. rewrite (P d i Hd), (V d i Hd). cbn [find]. rewrite (Z.eqb_sym i).
      destruct (n_ip n =? i) eqn:Q; [|reflexivity]. unfold val. destruct (lastcov ss d n); [reflexivity|].
      destruct (find (fun m => n_ip m =? i) ns) as [m|] eqn:F; [|reflexivity].
      exfalso. apply find_some in F. destruct F as [F1 F2]. apply (N m F1). lia.
  - destruct IH as (a & ns' & R & U & V).
    destruct (each_eq doms n (fun _ _ => None) ss OK a) as (a' & E & P).
    exists a', (take_out n ns'). split; [|split].
    + rewrite run_app, R. cbn [run step s_secs s_ann s_nips]. unfold remove_lans. now rewrite E.
    + intros i j p' q x y X Y -> ->.
      assert (G : exists p2 q2, p ++ n :: r = p2 ++ x :: q2 /\ In y (p2 ++ q2)).
      { clear - X Y. revert p' X Y. induction p as [|z p IHp]; intros p' X Y.
        - exists (n :: p'), q. cbn in *. rewrite X. split; [reflexivity|]. now right.
        - destruct p' as [|z' p']; cbn in X; injection X as X1 X2.
          + subst z. exists [], (p ++ n :: r). split; [reflexivity|]. cbn in *. rewrite <- X2 in Y.
            apply in_app_or in Y. apply in_or_app. destruct Y; [now left|right; now right].
          + subst z'. cbn in Y. destruct Y as [<-|Y].
            * assert (W : exists p2 q2, p ++ n :: r = p2 ++ x :: q2).
              { apply in_split. assert (I1 : In x (p ++ r)) by (rewrite X2; apply in_or_app; right; now left).
                apply in_app_or in I1. apply in_or_app. destruct I1; [now left|right; now right]. }
              destruct W as (p2 & q2 & W). exists (z :: p2), q2. cbn. rewrite W. split; [reflexivity|]. now left.
            * destruct (IHp p' X2 Y) as (p2 & q2 & W & I2). exists (z :: p2), q2. cbn. rewrite W.
              split; [reflexivity|]. now right. }
      destruct G as (p2 & q2 & G1 & G2). exact (U _ _ p2 q2 x y G1 G2 eq_refl eq_refl).
    + intros d i Hd. rewrite (P d i Hd), (V d i Hd).
      assert (D : forall y, In y (p ++ r) -> n_ip n <> n_ip y).
      { intros y Hy. exact (U _ _ p r n y eq_refl Hy eq_refl eq_refl). }
      assert (F : forall l, find (fun m => n_ip m =? i) (l ++ n :: r) =
                  match find (fun m => n_ip m =? i) l with Some m => Some m
                  | None => if n_ip n =? i then Some n else find (fun m => n_ip m =? i) r end).
      { induction l as [|z l IHl]; cbn; [reflexivity|]. now destruct (n_ip z =? i). }
      assert (F' : forall l, find (fun m => n_ip m =? i) (l ++ r) =
                  match find (fun m => n_ip m =? i) l with Some m => Some m | None => find (fun m => n_ip m =? i) r end).
      { induction l as [|z l IHl]; cbn; [reflexivity|]. now destruct (n_ip z =? i). }
      rewrite F, F'. rewrite (Z.eqb_sym i). destruct (n_ip n =? i) eqn:Q; [|reflexivity].
      assert (Fp : find (fun m => n_ip m =? i) p = None).
      { destruct (find (fun m => n_ip m =? i) p) as [m|] eqn:Fm; [|reflexivity]. exfalso. apply find_some in Fm.
        apply (D m); [apply in_or_app; now left|]. lia. }
      assert (Fr : find (fun m => n_ip m =? i) r = None).
      { destruct (find (fun m => n_ip m =? i) r) as [m|] eqn:Fm; [|reflexivity]. exfalso. apply find_some in Fm.
        apply (D m); [apply in_or_app; now right|]. lia. }
      rewrite Fp, Fr. unfold val. now destruct (lastcov ss d n).
Qed.
Theorem C165_exact_partial : forall cm doms ss os ns, secs_ok doms ss -> history os ns ->
  exists st, run cm doms (mkState ss [] none) os = Some st /\
  forall d i v, In d doms ->
    (s_ann st d i = Some v <-> exists n, In n ns /\ n_ip n = i /\ wanted cm ss d n v).
Proof.
  intros cm doms ss os ns OK H. destruct (exact cm doms ss os ns OK H) as (a & ns' & R & U & V).
  exists (mkState ss ns' a). split; [exact R|]. cbn [s_ann]. intros d i v Hd. rewrite (V d i Hd). split.
  - destruct (find (fun n => n_ip n =? i) ns) as [n|] eqn:F; [|discriminate]. intro W.
    apply find_some in F. exists n. split; [apply F|]. split; [lia|]. now apply val_iff.
  - intros (n & I1 & I2 & W). destruct (find (fun n => n_ip n =? i) ns) as [m|] eqn:F.
    + apply find_some in F. destruct (in_split n ns I1) as (p & q & E).
      assert (M : m = n).
      { destruct F as [F1 F2]. rewrite E in F1. apply in_app_or in F1. destruct F1 as [F1|[F1|F1]].
        - exfalso. apply (U i i p q n m E); [apply in_or_app; now left|now symmetry|lia|reflexivity].
        - now symmetry.
        - exfalso. apply (U i i p q n m E); [apply in_or_app; now right|now symmetry|lia|reflexivity]. }
      subst m. now apply val_iff.
    + exfalso. assert (X := find_none _ _ F n I1). cbn in X. lia.
Qed.

(** an import of all DLEP origins (dlep plus asterisk) for all domains, and of one origin for domain 1 *)
Definition dlep : list Z := [100; 108; 101; 112].
Definition s_all : sec := mkSec (dlep ++ [42]) (-1) (-1) 2.
Definition s_one : sec := mkSec (dlep ++ [49]) 1 700 3.
Definition cm_ex (d : Z) (n : nip) : Z := 10 + d.
Definition look (r : option state) (d i : Z) : option (Z * Z) := match r with Some st => s_ann st d i | None => None end.
Example C165_ex :
  let r := run cm_ex [0; 1] init [Section s_all; Section s_one; Add (mkNip 7 (dlep ++ [49])); Add (mkNip 8 (dlep ++ [50]));
                                  Add (mkNip 9 [120]); Add (mkNip 5 dlep); Remove (mkNip 5 dlep)] in
  look r 0 7 = Some (10, 2) /\ look r 1 7 = Some (700, 3) /\ look r 1 8 = Some (11, 2) /\
  look r 0 9 = None /\ look r 0 5 = None.
Proof. vm_compute. repeat split; reflexivity. Qed.

(** a removed section leaves its networks attached, even though nothing is configured *)
Theorem C165_removed_section_refuted : exists cm doms s n st v,
  run cm doms init [Section s; Add n; Gone (c_name s)] = Some st /\ s_secs st = [] /\ In 0 doms /\ s_ann st 0 (n_ip n) = Some v.
Proof.
  exists cm_ex, [0; 1], (mkSec (dlep ++ [49]) (-1) 700 3), (mkNip 7 (dlep ++ [49])).
  eexists. exists (700, 3). split; [reflexivity|]. repeat split; try reflexivity. now left.
Qed.
(** ... and removes networks of another section, which is still there *)
Theorem C165_other_section_refuted : exists cm doms s s' n st v,
  run cm doms init [Section s; Section s'; Add n; Gone (c_name s')] = Some st /\ s_secs st = [s] /\
  In n (s_nips st) /\ In 0 doms /\ wanted cm (s_secs st) 0 n v /\ s_ann st 0 (n_ip n) = None.
Proof.
  exists cm_ex, [0; 1], s_all, s_one, (mkNip 7 (dlep ++ [49])). eexists. exists (10, 2).
  split; [reflexivity|]. split; [reflexivity|]. split; [now left|]. split; [now left|]. split; [|reflexivity].
  exists [], s_all, []. split; [reflexivity|]. split.
  - split; [right; exists dlep, [49]; split; reflexivity|]. right. reflexivity.
  - split; [intros x []|reflexivity].
Qed.
(** an address that is there before the section is never imported *)
Theorem C165_late_section_refuted : exists cm doms s n st v,
  run cm doms init [Add n; Section s] = Some st /\ In n (s_nips st) /\ In 0 doms /\
  wanted cm (s_secs st) 0 n v /\ s_ann st 0 (n_ip n) = None.
Proof.
  exists cm_ex, [0; 1], s_all, (mkNip 7 (dlep ++ [49])). eexists. exists (10, 2).
  split; [reflexivity|]. split; [now left|]. split; [now left|]. split; [|reflexivity].
  exists [], s_all, []. split; [reflexivity|]. split.
  - split; [right; exists dlep, [49]; split; reflexivity|]. right. reflexivity.
  - split; [intros x []|reflexivity].
Qed.
(** two neighbors with the same address: the network goes with the first one *)
Theorem C165_same_address_refuted : exists cm doms s n n' st v,
  run cm doms init [Section s; Add n; Add n'; Remove n] = Some st /\ s_nips st = [n'] /\ In 0 doms /\
  wanted cm (s_secs st) 0 n' v /\ s_ann st 0 (n_ip n') = None.
Proof.
  exists cm_ex, [0; 1], s_all, (mkNip 7 (dlep ++ [49])), (mkNip 7 (dlep ++ [50])). eexists. exists (10, 2).
  split; [reflexivity|]. split; [reflexivity|]. split; [now left|]. split; [|reflexivity].
  exists [], s_all, []. split; [reflexivity|]. split.
  - split; [right; exists dlep, [50]; split; reflexivity|]. right. reflexivity.
  - split; [intros x []|reflexivity].
Qed.
(** a section for a domain that does not exist: the program ends with the first address *)
Theorem C165_unknown_domain_refuted : exists cm doms s n, 0 <= c_domain s <= 255 /\
  run cm doms init [Section s; Add n] = None.
Proof. exists cm_ex, [0], s_one, (mkNip 7 (dlep ++ [49])). split; [cbn; lia|reflexivity]. Qed.

Print Assumptions C165_exact_partial.
Print Assumptions C165_removed_section_refuted.
Print Assumptions C165_other_section_refuted.
Print Assumptions C165_late_section_refuted.
Print Assumptions C165_same_address_refuted.
Print Assumptions C165_unknown_domain_refuted.
