(** Properties of configured attached networks: C162. *)
From Verif Require Import Base CodecModel OlanModel OlanSpec.

(** ** Parameters *)
Definition upd (d : data) (w : word) : data :=
  match w with
  | Metric n => {| d_ext := d_ext d; d_metric := n; d_dist := d_dist d; d_src := d_src d |}
  | Domain n => {| d_ext := n; d_metric := d_metric d; d_dist := d_dist d; d_src := d_src d |}
  | AllDomains => {| d_ext := -1; d_metric := d_metric d; d_dist := d_dist d; d_src := d_src d |}
  | Dist n => {| d_ext := d_ext d; d_metric := d_metric d; d_dist := n; d_src := d_src d |}
  | Source a _ => {| d_ext := d_ext d; d_metric := d_metric d; d_dist := d_dist d; d_src := a |}
  | Other => d
  end.
Lemma u32_small n : 0 <= n < 4294967296 -> u32 n = n.
Proof. intro H. unfold u32. apply Z.mod_small. exact H. Qed.
Lemma parse_ok ws : Forall word_ok ws -> forall d, parse false ws d = Some (fold_left upd ws d).
Proof.
  induction 1 as [|w r W _ IH]; intro d; [reflexivity|]. destruct w as [n|n| |n|a ok|]; cbn in W; cbn [parse fold_left upd].
  - unfold METRIC_MIN, METRIC_MAX in W. rewrite u32_small by lia. rewrite Bool.andb_false_r. apply IH.
  - rewrite u32_small by lia. rewrite Bool.andb_false_r. destruct (n >? 255) eqn:E; [lia|]. apply IH.
  - apply IH.
  - rewrite u32_small by lia. rewrite Bool.andb_false_r. apply IH.
  - rewrite W. apply IH.
  - destruct W.
Qed.
(** a field of the data is the last parameter of its kind *)
Lemma given_fold {A} (f : word -> option A) (g : data -> A) :
  (forall d w, g (upd d w) = match f w with Some v => v | None => g d end) ->
  forall ws d v, given f ws (g d) v <-> g (fold_left upd ws d) = v.
Proof.
  intros G. induction ws as [|w r IH]; intros d v; cbn [fold_left].
  - split.
    + intros [[a [w [b [E _]]]]|[_ ->]]; [destruct a; discriminate|reflexivity].
    + intros <-. right. split; [intros x []|reflexivity].
  - rewrite <- IH, G. split.
    + intros [[a [x [b [E [F N]]]]]|[N ->]].
      * destruct a as [|y a]; injection E as -> ->.
        -- right. rewrite F. auto.
        -- left. exists a, x, b. auto.
      * right. rewrite (N w (or_introl eq_refl)). split; [intros x H; apply N; right; exact H|reflexivity].
    + intros [[a [x [b [-> [F N]]]]]|[N E]].
      * left. exists (w :: a), x, b. auto.
      * destruct (f w) as [u|] eqn:Fw.
        -- left. exists [], w, r. subst v. auto.
        -- right. split; [intros x [<-|H]; auto|exact E].
Qed.
Definition ext_opt (d : data) : option Z := if d_ext d =? -1 then None else Some (d_ext d).
Lemma given_dom ws : Forall word_ok ws -> forall d v, given w_dom ws (ext_opt d) v <-> ext_opt (fold_left upd ws d) = v.
Proof.
  intro W. assert (H : forall ws, Forall word_ok ws -> forall d v, given w_dom ws (ext_opt d) v <-> ext_opt (fold_left upd ws d) = v); [|apply H; exact W].
  clear. induction 1 as [|w r W _ IH]; intros d v; cbn [fold_left].
  - split.
    + intros [[a [w [b [E _]]]]|[_ ->]]; [destruct a; discriminate|reflexivity].
    + intros <-. right. split; [intros x []|reflexivity].
  - assert (G : ext_opt (upd d w) = match w_dom w with Some v => v | None => ext_opt d end).
    { unfold ext_opt. destruct w as [n|n| |n|a ok|]; cbn in *; try reflexivity. destruct (n =? -1) eqn:E; [lia|reflexivity]. }
    rewrite <- IH, G. split.
    + intros [[a [x [b [E [F N]]]]]|[N ->]].
      * destruct a as [|y a]; injection E as -> ->.
        -- right. rewrite F. auto.
        -- left. exists a, x, b. auto.
      * right. rewrite (N w (or_introl eq_refl)). split; [intros x H; apply N; right; exact H|reflexivity].
    + intros [[a [x [b [-> [F N]]]]]|[N E]].
      * left. exists (w :: a), x, b. auto.
      * destruct (w_dom w) as [u|] eqn:Fw.
        -- left. exists [], w, r. subst v. auto.
        -- right. split; [intros x [<-|H]; auto|exact E].
Qed.
Definition dat (l : line) : data := fold_left upd (n_words l) defaults.
Lemma means_iff l d k m x : line_ok l -> d <> -1 -> (means l d k m x <->
  k = (n_dst l, d_src (dat l)) /\ (d_ext (dat l) = -1 \/ d_ext (dat l) = d) /\ m = d_metric (dat l) /\ x = d_dist (dat l)).
Proof.
  intros L Nd. unfold means.
  rewrite (given_fold w_src d_src (fun d w => ltac:(destruct w; reflexivity)) (n_words l) defaults (snd k)).
  rewrite (given_fold w_metric d_metric (fun d w => ltac:(destruct w; reflexivity)) (n_words l) defaults m).
  rewrite (given_fold w_dist d_dist (fun d w => ltac:(destruct w; reflexivity)) (n_words l) defaults x).
  rewrite !(given_dom (n_words l) L defaults). fold (dat l). unfold ext_opt.
  destruct k as [k1 k2]. cbn. split.
  - intros [-> [<- [H [<- <-]]]]. split; [reflexivity|]. split; [|auto]. destruct (d_ext (dat l) =? -1) eqn:E; [left; lia|].
    right. destruct H as [H|H]; [discriminate|]. congruence.
  - intros [E [H [-> ->]]]. injection E as -> ->. split; [reflexivity|]. split; [reflexivity|]. split; [|auto].
    destruct (d_ext (dat l) =? -1) eqn:Q; [auto|]. right. f_equal. lia.
Qed.
(** what is stored for a correct line *)
Lemma dat_ok ws : Forall word_ok ws -> forall d, (METRIC_MIN <= d_metric d <= METRIC_MAX /\ 0 <= d_dist d <= 255) ->
  METRIC_MIN <= d_metric (fold_left upd ws d) <= METRIC_MAX /\ 0 <= d_dist (fold_left upd ws d) <= 255.
Proof.
  induction 1 as [|w r W _ IH]; intros d D; [exact D|]. cbn [fold_left]. apply IH. destruct w; cbn in *; tauto.
Qed.
Lemma dat_range l : line_ok l -> METRIC_MIN <= d_metric (dat l) <= METRIC_MAX /\ 0 <= d_dist (dat l) <= 255.
Proof. intro L. apply dat_ok; [exact L|]. cbn. unfold METRIC_MIN, METRIC_MAX. lia. Qed.
Lemma dat_dom ws doms : (forall n, In (Domain n) ws -> In n doms) -> forall d, (d_ext d = -1 \/ In (d_ext d) doms) ->
  d_ext (fold_left upd ws d) = -1 \/ In (d_ext (fold_left upd ws d)) doms.
Proof.
  induction ws as [|w r IH]; intros K d D; [exact D|]. cbn [fold_left]. apply IH; [intros n H; apply K; right; exact H|].
  destruct w; cbn; auto. right. apply K. left. reflexivity.
Qed.

(** ** Networks *)
Lemma keqb_eq a b : keqb a b = true <-> a = b.
Proof.
  destruct a as [a1 a2], b as [b1 b2]. unfold keqb. cbn. rewrite Bool.andb_true_iff, !Z.eqb_eq.
  split; [intros [-> ->]; reflexivity|intro H; injection H as -> ->; auto].
Qed.
Lemma remove_in d k a d' k' v : In (d', k', v) (lan_remove d k a) <-> In (d', k', v) a /\ ~ (d' = d /\ k' = k).
Proof.
  unfold lan_remove. rewrite filter_In, Bool.negb_true_iff, <- Bool.not_true_iff_false, Bool.andb_true_iff, keqb_eq, Z.eqb_eq. tauto.
Qed.
Lemma set_in add d k p a d' k' v : In (d', k', v) (lan_set add d k p a) <->
  (add = true /\ d' = d /\ k' = k /\ v = (d_metric p, u8 (d_dist p))) \/ (In (d', k', v) a /\ ~ (d' = d /\ k' = k)).
Proof.
  unfold lan_set. destruct add; cbn [In]; rewrite remove_in; [|intuition discriminate]. split.
  - intros [H|H]; [injection H as <- <- <-; auto|auto].
  - intros [[_ [-> [-> ->]]]|H]; auto.
Qed.
Lemma set_all_in add k p doms : forall a d' k' v, In (d', k', v) (fold_left (fun a d => lan_set add d k p a) doms a) <->
  (add = true /\ In d' doms /\ k' = k /\ v = (d_metric p, u8 (d_dist p))) \/ (In (d', k', v) a /\ ~ (In d' doms /\ k' = k)).
Proof.
  induction doms as [|d r IH]; intros a d' k' v; cbn [fold_left In]; [tauto|]. rewrite IH, set_in. split.
  - intros [[H1 [H2 H3]]|[[[H1 [-> H2]]|[H1 H2]] H3]]; [tauto|tauto|]. right. split; [exact H1|]. intros [[<-|H4] ->]; tauto.
  - intros [[H1 [[<-|H2] [-> ->]]]|[H1 H2]]; [|tauto|].
    + destruct (in_dec Z.eq_dec d r) as [D|D]; [tauto|]. right. split; [tauto|]. tauto.
    + right. split; [|tauto]. right. split; [exact H1|]. intros [-> ->]. apply H2. auto.
Qed.

Definition covers (doms : list Z) (l : line) (d : Z) (k : key) : Prop :=
  In d doms /\ k = (n_dst l, d_src (dat l)) /\ (d_ext (dat l) = -1 \/ d_ext (dat l) = d).
Lemma apply_in doms add s l : line_ok l -> known doms l -> s_doms s = doms -> s_doms (apply false add s l) = doms /\
  forall d k m x, In (d, k, (m, x)) (s_ann (apply false add s l)) <->
    (add = true /\ covers doms l d k /\ m = d_metric (dat l) /\ x = d_dist (dat l)) \/ (In (d, k, (m, x)) (s_ann s) /\ ~ covers doms l d k).
Proof.
  intros L K E. unfold apply. rewrite (parse_ok _ L). fold (dat l). pose proof (dat_range l L) as R.
  assert (U : u8 (d_dist (dat l)) = d_dist (dat l)) by (unfold u8; apply Z.mod_small; lia).
  destruct (dat_dom (n_words l) doms K defaults (or_introl eq_refl)) as [H|H]; fold (dat l) in H.
  - rewrite H. cbn. split; [exact E|]. intros d k m x. rewrite set_all_in, U, E. unfold covers. split.
    + intros [[H1 [H2 [H3 H4]]]|[H1 H2]]; [injection H4 as -> ->; tauto|right; split; [exact H1|tauto]].
    + intros [[H1 [[H2 [H3 _]] [-> ->]]]|[H1 H2]]; [tauto|right; split; [exact H1|tauto]].
  - destruct (d_ext (dat l) =? -1) eqn:Q.
    + assert (d_ext (dat l) = -1) by lia. cbn. split; [exact E|]. intros d k m x. rewrite set_all_in, U, E. unfold covers. split.
      * intros [[H1 [H2 [H3 H4]]]|[H1 H2]]; [injection H4 as -> ->; tauto|right; split; [exact H1|tauto]].
      * intros [[H1 [[H2 [H3 _]] [-> ->]]]|[H1 H2]]; [tauto|right; split; [exact H1|tauto]].
    + unfold domain_add. rewrite E. replace (existsb (Z.eqb (d_ext (dat l))) doms) with true
        by (symmetry; apply existsb_exists; exists (d_ext (dat l)); split; [exact H|lia]).
      cbn. split; [reflexivity|]. intros d k m x. rewrite set_in, U. unfold covers. split.
      * intros [[H1 [-> [H3 H4]]]|[H1 H2]]; [injection H4 as -> ->; tauto|right; split; [exact H1|]].
        intros [_ [H4 [H5|H5]]]; [lia|]. apply H2. auto.
      * intros [[H1 [[H2 [H3 [H4|H4]]] [-> ->]]]|[H1 H2]]; [lia|left; auto|right; split; [exact H1|]]. intros [-> ->]. apply H2. auto.
Qed.
Lemma remove_all doms ls : Forall line_ok ls -> Forall (known doms) ls -> forall s, s_doms s = doms ->
  s_doms (fold_left (apply false false) ls s) = doms /\
  forall d k m x, In (d, k, (m, x)) (s_ann (fold_left (apply false false) ls s)) <->
    In (d, k, (m, x)) (s_ann s) /\ forall l, In l ls -> ~ covers doms l d k.
Proof.
  induction ls as [|l r IH]; intros L K s E; cbn [fold_left]; [split; [exact E|]; intros; split; [intro H; split; [exact H|intros ? []]|tauto]|].
  inversion L; inversion K; subst. destruct (apply_in (s_doms s) false s l) as [A1 A2]; auto.
  destruct (IH H2 H6 (apply false false s l) A1) as [B1 B2]. split; [exact B1|]. intros d k m x. rewrite B2, A2. split.
  - intros [[[H _]|[H3 H4]] H7]; [discriminate|]. split; [exact H3|]. intros l' [<-|H8]; auto.
  - intros [H3 H4]. split; [right; split; [exact H3|apply H4; left; reflexivity]|]. intros l' H7. apply H4. right. exact H7.
Qed.
Lemma add_all doms ls : Forall line_ok ls -> Forall (known doms) ls -> forall s, s_doms s = doms ->
  s_doms (fold_left (apply false true) ls s) = doms /\
  forall d k m x, In (d, k, (m, x)) (s_ann (fold_left (apply false true) ls s)) <->
    (In (d, k, (m, x)) (s_ann s) /\ forall l, In l ls -> ~ covers doms l d k) \/
    exists a l b, ls = a ++ l :: b /\ covers doms l d k /\ m = d_metric (dat l) /\ x = d_dist (dat l) /\ forall l', In l' b -> ~ covers doms l' d k.
Proof.
  induction ls as [|l r IH]; intros L K s E; cbn [fold_left].
  { split; [exact E|]. intros. split; [intro H; left; split; [exact H|intros ? []]|]. intros [H|[a [l [b [H _]]]]]; [tauto|destruct a; discriminate]. }
  inversion L; inversion K; subst. destruct (apply_in (s_doms s) true s l) as [A1 A2]; auto.
  destruct (IH H2 H6 (apply false true s l) A1) as [B1 B2]. split; [exact B1|]. intros d k m x. rewrite B2, A2. split.
  - intros [[[[_ [H3 [H4 H4']]]|[H3 H4]] H7]|[a [l' [b [-> H3]]]]].
    + right. exists [], l, r. auto.
    + left. split; [exact H3|]. intros l' [<-|H8]; auto.
    + right. exists (l :: a), l', b. auto.
  - intros [[H3 H4]|[a [l' [b [H3 [H4 [H7 [H8 H9]]]]]]]].
    + left. split; [right; split; [exact H3|apply H4; left; reflexivity]|]. intros l' H7. apply H4. right. exact H7.
    + destruct a as [|y a]; injection H3 as -> ->.
      * left. split; [left; auto|exact H9].
      * right. exists a, l', b. auto.
Qed.

(** ** C162 *)
Definition mine (doms : list Z) (pre : list line) (s : st) : Prop := s_doms s = doms /\
  forall d k m x, In (d, k, (m, x)) (s_ann s) <->
    exists a l b, pre = a ++ l :: b /\ covers doms l d k /\ m = d_metric (dat l) /\ x = d_dist (dat l) /\ forall l', In l' b -> ~ covers doms l' d k.
Lemma mine_changed doms pre post s : Forall line_ok pre -> Forall (known doms) pre -> Forall line_ok post -> Forall (known doms) post ->
  mine doms pre s -> mine doms post (changed false s pre post).
Proof.
  intros L K L' K' [E M]. unfold changed. destruct (remove_all doms pre L K s E) as [A1 A2].
  destruct (add_all doms post L' K' _ A1) as [B1 B2]. split; [exact B1|]. intros d k m x. rewrite B2, A2, M. split; [|auto].
  intros [[[[a [l [b [H1 [H2 _]]]]] H3] _]|H]; [|exact H]. exfalso. apply (H3 l); [subst pre; apply in_elt|exact H2].
Qed.
(** a configuration of correct lines, no error left in errno, all domains known: exactly the networks of the last configuration are
    attached; missing: new domains and what is left in errno *)
Theorem C162_exact_partial doms os post : ~ In (-1) doms ->
  (forall o, In o (os ++ [(false, post)]) -> fst o = false /\ Forall line_ok (snd o) /\ Forall (known doms) (snd o)) ->
  exact doms post (run {| s_doms := doms; s_ann := [] |} [] (os ++ [(false, post)])).
Proof.
  intros Nd. assert (X : forall os pre s, Forall line_ok pre -> Forall (known doms) pre -> mine doms pre s ->
    (forall o, In o (os ++ [(false, post)]) -> fst o = false /\ Forall line_ok (snd o) /\ Forall (known doms) (snd o)) ->
    mine doms post (run s pre (os ++ [(false, post)]))).
  { clear os. induction os as [|[err p] t IH]; intros pre s L K M H; cbn [app run].
    - destruct (H (false, post) (or_introl eq_refl)) as [_ [H1 H2]]. apply mine_changed; auto.
    - destruct (H (err, p) (or_introl eq_refl)) as [H0 [H1 H2]]. cbn in H0. subst err. cbn in H1, H2.
      apply IH; auto; [apply mine_changed; auto|]. intros o Ho. apply H. right. exact Ho. }
  intros H. destruct (X os [] {| s_doms := doms; s_ann := [] |}) as [E M]; auto.
  { split; [reflexivity|]. intros d k m x. split; [intros []|]. intros [a [l [b [Q _]]]]. destruct a; discriminate. }
  assert (Lp : Forall line_ok post) by (apply (H (false, post)); apply in_elt).
  rewrite Forall_forall in Lp. intros d k m x. rewrite M. split.
  - intros [a [l [b [-> [[C1 [C2 C3]] [C4 [C5 C6]]]]]]]. assert (N : d <> -1) by (intros ->; contradiction). split; [exact C1|].
    exists a, l, b. split; [reflexivity|]. split; [apply means_iff; auto; apply Lp; apply in_elt|].
    intros l' m' x' H1 H2. apply (C6 l' H1). apply means_iff in H2; [|apply Lp; apply in_or_app; right; right; exact H1|exact N].
    split; [exact C1|]. tauto.
  - intros [C1 [a [l [b [-> [C2 C3]]]]]]. assert (N : d <> -1) by (intros ->; contradiction).
    apply means_iff in C2; [|apply Lp; apply in_elt|exact N]. destruct C2 as [C4 [C5 [C6 C7]]].
    exists a, l, b. split; [reflexivity|]. split; [split; auto|]. split; [exact C6|]. split; [exact C7|].
    intros l' H1 [H2 [H3 H4]]. apply (C3 l' (d_metric (dat l')) (d_dist (dat l')) H1).
    apply means_iff; [apply Lp; apply in_or_app; right; right; exact H1|exact N|auto].
Qed.
(** correct lines pass the validation *)
Theorem C162_valid_partial l : line_ok l -> validate false l = true.
Proof.
  intro L. unfold validate. rewrite (parse_ok _ L). fold (dat l). pose proof (dat_range l L) as R. rewrite !Bool.andb_true_iff. lia.
Qed.

Definition ln (a : Z) (ws : list word) : line := {| n_dst := a; n_words := ws |}.
Example C162_ex : let os := [(false, [ln 10 []; ln 11 [Domain 1; Metric 5]])] in let post := [ln 10 [Dist 0]; ln 12 [Domain 0; Source 7 true]; ln 10 [Domain 0; Metric 9]] in
  (forall o, In o (os ++ [(false, post)]) -> fst o = false /\ Forall line_ok (snd o) /\ Forall (known [0; 1]) (snd o)) /\
  s_ann (run {| s_doms := [0; 1]; s_ann := [] |} [] (os ++ [(false, post)])) = [(0, (10, 0), (9, 2)); (0, (12, 7), (1, 2)); (1, (10, 0), (1, 0))].
Proof.
  cbv zeta. split; [|vm_compute; reflexivity]. intros o Ho.
  assert (K : forall l, match n_words l with [] => True | [Domain n; _] => n = 0 \/ n = 1 | [Dist _] => True | _ => False end ->
    (forall x, In x (tl (n_words l)) -> match x with Domain _ => False | _ => True end) -> known [0; 1] l).
  { intros l H T n Hn. destruct (n_words l) as [|[| | | | |] [|]]; cbn in *; try tauto; try (destruct Hn as [Hn|Hn]; [discriminate|tauto]).
    destruct l0; [|contradiction]. destruct Hn as [Hn|[Hn|[]]]; [injection Hn as <-; intuition|]. subst w. destruct (T _ (or_introl eq_refl)). }
  destruct Ho as [<-|[<-|[]]]; cbn; (split; [reflexivity|]; split);
    repeat first [apply Forall_nil | apply Forall_cons]; try (apply K; cbn; [auto|]; intros x; repeat (intros [<-|H]; [exact Logic.I|]; revert H); tauto);
    unfold line_ok; cbn; repeat first [apply Forall_nil | apply Forall_cons]; cbn; unfold METRIC_MIN, METRIC_MAX; try reflexivity; lia.
Qed.
(** errno is set by something else: a line with domain 0 is refused *)
Theorem C162_refused_refuted : exists l, n_words l = [Domain 0] /\ line_ok l /\ validate false l = true /\ validate true l = false.
Proof.
  exists (ln 10 [Domain 0]). split; [reflexivity|]. split; [|split; reflexivity]. unfold line_ok. cbn. constructor; [cbn; lia|constructor].
Qed.
(** ... and a network with such a line stays attached when its line is removed *)
Theorem C162_not_removed_refuted : exists l, line_ok l /\ known [0] l /\
  s_ann (run {| s_doms := [0]; s_ann := [] |} [] [(false, [l]); (true, [])]) = [(0, (n_dst l, 0), (1, 2))].
Proof.
  exists (ln 10 [Domain 0]). split; [unfold line_ok; cbn; constructor; [cbn; lia|constructor]|]. split; [|reflexivity].
  intros n [H|[]]. injection H as <-. left. reflexivity.
Qed.
(** a network for all domains is not attached for a domain that a later line creates; with the lines in the other order it is *)
Theorem C162_new_domain_refuted : exists l l' s s', line_ok l /\ line_ok l' /\ n_words l = [] /\
  run {| s_doms := [0]; s_ann := [] |} [] [(false, [l; l'])] = s /\ run {| s_doms := [0]; s_ann := [] |} [] [(false, [l'; l])] = s' /\
  In 5 (s_doms s) /\ means l 5 (n_dst l, 0) 1 2 /\ ~ (exists v, In (5, (n_dst l, 0), v) (s_ann s)) /\ In (5, (n_dst l, 0), (1, 2)) (s_ann s').
Proof.
  exists (ln 10 []), (ln 11 [Domain 5]). do 2 eexists. split; [constructor|]. split; [unfold line_ok; cbn; constructor; [cbn; lia|constructor]|].
  split; [reflexivity|]. split; [vm_compute; reflexivity|]. split; [vm_compute; reflexivity|]. split; [right; left; reflexivity|].
  split; [|split].
  - unfold means. cbn. repeat split; try (right; split; [intros x []|reflexivity]). left. right. split; [intros x []|reflexivity].
  - intros [v H]. cbn in H. repeat (destruct H as [H|H]; [discriminate H|]). destruct H.
  - cbn. tauto.
Qed.
(** a metric far too high is accepted as another one *)
Theorem C162_wrong_metric_refuted : exists n, n > METRIC_MAX /\ n < 2 ^ 64 /\ ~ line_ok (ln 10 [Metric n]) /\ validate false (ln 10 [Metric n]) = true /\
  s_ann (run {| s_doms := [0]; s_ann := [] |} [] [(false, [ln 10 [Metric n]])]) = [(0, (10, 0), (7, 2))].
Proof.
  exists (2 ^ 32 + 7). split; [reflexivity|]. split; [reflexivity|]. split; [|split; reflexivity].
  intro H. unfold line_ok in H. cbn [ln n_words] in H. inversion H as [|? ? H1]. cbn in H1. unfold METRIC_MAX in H1. lia.
Qed.

(** whatever errno says: a line with a wrong word or a distance (of the last such
    parameter, cut to 32 bits) above 255 is refused *)
Lemma parse_app err a b : forall d, parse err (a ++ b) d = match parse err a d with Some d' => parse err b d' | None => None end.
Proof.
  induction a as [|w r IH]; intro d; [reflexivity|]. destruct w as [n|n| |n|s ok|]; cbn [app parse].
  - destruct ((u32 n =? 0) && err); [reflexivity|apply IH].
  - destruct (((u32 n =? 0) && err) || (u32 n >? 255)); [reflexivity|apply IH].
  - apply IH.
  - destruct ((u32 n =? 0) && err); [reflexivity|apply IH].
  - destruct ok; [apply IH|reflexivity].
  - reflexivity.
Qed.
Lemma parse_dist err r : (forall n, ~ In (Dist n) r) -> forall d d', parse err r d = Some d' -> d_dist d' = d_dist d.
Proof.
  induction r as [|w r IH]; intros N d d' H; [injection H as <-; reflexivity|].
  assert (N' : forall n, ~ In (Dist n) r) by (intros n X; apply (N n); now right).
  destruct w as [n|n| |n|s ok|]; cbn [parse] in H.
  - destruct ((u32 n =? 0) && err); [discriminate|]. apply (IH N') in H. exact H.
  - destruct (((u32 n =? 0) && err) || (u32 n >? 255)); [discriminate|]. apply (IH N') in H. exact H.
  - apply (IH N') in H. exact H.
  - exfalso. apply (N n). now left.
  - destruct ok; [|discriminate]. apply (IH N') in H. exact H.
  - discriminate.
Qed.
Theorem C162_refuses_partial : forall err l, validate err l = true ->
  ~ In Other (n_words l) /\
  forall p n r, n_words l = p ++ Dist n :: r -> (forall k, ~ In (Dist k) r) -> u32 n <= 255.
Proof.
  intros err l V. unfold validate in V. destruct (parse err (n_words l) defaults) as [d|] eqn:P; [|discriminate]. split.
  - intro H. apply in_split in H. destruct H as (a & b & E). rewrite E, parse_app in P.
    destruct (parse err a defaults); discriminate.
  - intros p n r E N. rewrite E, parse_app in P. destruct (parse err p defaults) as [d0|]; [|discriminate].
    cbn [parse] in P. destruct ((u32 n =? 0) && err); [discriminate|]. apply (parse_dist err r N) in P. cbn in P.
    rewrite !Bool.andb_true_iff in V. destruct V as [_ V]. apply Z.leb_le in V. lia.
Qed.

Print Assumptions C162_refuses_partial.
Print Assumptions C162_exact_partial.
Print Assumptions C162_valid_partial.
Print Assumptions C162_refused_refuted.
Print Assumptions C162_not_removed_refuted.
Print Assumptions C162_new_domain_refuted.
Print Assumptions C162_wrong_metric_refuted.
