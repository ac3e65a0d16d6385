(** Properties of the LAN import: C159-C161. *)
From Verif Require Import Base CodecModel LimpModel LimpSpec.

Lemma importable_iff e r : eligible e r = true <-> importable e r.
Proof.
  unfold eligible, allowed, importable. rewrite !Bool.andb_true_iff, !Bool.negb_true_iff. split.
  - intros [[A B] [C D]]. repeat split; auto. intro H. rewrite <- Bool.not_true_iff_false in C. apply C.
    apply existsb_exists. exists (r_table r, r_proto r). split; [exact H|]. cbn. lia.
  - intros [A [B [C D]]]. repeat split; auto. apply Bool.not_true_iff_false. intro H. apply C.
    apply existsb_exists in H as [[a b] [H1 H2]]. cbn in H2. replace (r_table r) with a by lia. replace (r_proto r) with b by lia. exact H1.
Qed.
Lemma any_iff c x : ((c =? -1) || (c =? x)) = true <-> any_or c x.
Proof. unfold any_or. rewrite Bool.orb_true_iff. lia. Qed.
Lemma meant_iff c r : fits c r = true <-> meant c r.
Proof.
  unfold fits, meant. rewrite !Bool.andb_true_iff, !any_iff, Bool.orb_true_iff, Bool.andb_true_iff, Bool.negb_true_iff.
  rewrite !Z.eqb_eq, Z.eqb_neq. tauto.
Qed.

(** ** Attached networks *)
Definition isin (a : list (Z * Z * Z * Z)) (d k : Z) : Prop := exists m x, In (d, k, m, x) a.
Lemma isin_drop d k a d' k' : isin (drop d k a) d' k' <-> isin a d' k' /\ ~ (d' = d /\ k' = k).
Proof.
  unfold isin, drop. split.
  - intros [m [x H]]. apply filter_In in H as [H1 H2]. split; [exists m, x; exact H1|]. lia.
  - intros [[m [x H]] N]. exists m, x. apply filter_In. split; [exact H|]. lia.
Qed.
Lemma isin_add d k m x a d' k' : isin (lan_add d k m x a) d' k' <-> isin a d' k' \/ (d' = d /\ k' = k).
Proof.
  unfold lan_add. split.
  - intros [m' [x' [H|H]]].
    + injection H as <- <- <- <-. right. split; reflexivity.
    + left. apply (isin_drop d k a d' k'). exists m', x'. exact H.
  - intros H. destruct (Z.eq_dec d' d) as [->|Nd].
    + destruct (Z.eq_dec k' k) as [->|Nk]; [exists m, x; left; reflexivity|].
      destruct H as [H|[_ H]]; [|contradiction]. assert (G : isin (drop d k a) d k') by (apply isin_drop; split; [exact H|lia]).
      destruct G as [m' [x' G]]. exists m', x'. right. exact G.
    + destruct H as [H|[H _]]; [|contradiction]. assert (G : isin (drop d k a) d' k') by (apply isin_drop; split; [exact H|lia]).
      destruct G as [m' [x' G]]. exists m', x'. right. exact G.
Qed.
Lemma isin_add_all c k m x doms : forall a d' k',
  isin (fold_left (fun a d => if covers c d then lan_add d k m x a else a) doms a) d' k' <->
  isin a d' k' \/ (k' = k /\ In d' doms /\ covers c d' = true).
Proof.
  induction doms as [|d r IH]; intros a d' k'; cbn [fold_left In]; [tauto|]. rewrite IH. destruct (covers c d) eqn:C.
  - rewrite isin_add. split; intro H.
    + destruct H as [[H|[-> ->]]|[H1 [H2 H3]]]; auto.
    + destruct H as [H|[H1 [[<-|H2] H3]]]; auto.
  - split; intro H.
    + destruct H as [H|[H1 [H2 H3]]]; auto.
    + destruct H as [H|[H1 [[<-|H2] H3]]]; auto. congruence.
Qed.
Lemma isin_drop_all c k doms : forall a d' k',
  isin (fold_left (fun a d => if covers c d then drop d k a else a) doms a) d' k' <->
  isin a d' k' /\ ~ (k' = k /\ In d' doms /\ covers c d' = true).
Proof.
  induction doms as [|d r IH]; intros a d' k'; cbn [fold_left In]; [tauto|]. rewrite IH. destruct (covers c d) eqn:C.
  - rewrite isin_drop. split.
    + intros [[H1 H2] H3]. split; [exact H1|]. intros [-> [[<-|H4] H5]]; tauto.
    + intros [H1 H2]. split; [split; [exact H1|]|]; intro H; apply H2; [destruct H as [-> ->]|]; tauto.
  - split.
    + intros [H1 H2]. split; [exact H1|]. intros [-> [[<-|H4] H5]]; [congruence|tauto].
    + intros [H1 H2]. split; [exact H1|]. tauto.
Qed.

(** ** Objects *)
Definition has (s : st) (i k : Z) : Prop := exists l, In l (s_lans s) /\ l_imp l = i /\ l_key l = k.
Definition well (s : st) : Prop :=
  (forall l, In l (s_lans s) -> l_id l < s_next s) /\
  (forall l l', In l (s_lans s) -> In l' (s_lans s) -> l_id l = l_id l' -> l = l') /\
  (forall l l', In l (s_lans s) -> In l' (s_lans s) -> l_imp l = l_imp l' -> l_key l = l_key l' -> l = l').
Lemma find_lan s i k : match find (is_lan i k) (s_lans s) with
  | Some l => In l (s_lans s) /\ l_imp l = i /\ l_key l = k | None => ~ has s i k end.
Proof.
  destruct (find _ _) as [l|] eqn:E.
  - apply find_some in E as [H1 H2]. unfold is_lan in H2. split; [exact H1|]. lia.
  - intros [l [H1 [H2 H3]]]. pose proof (find_none _ _ E l H1) as H. unfold is_lan in H. lia.
Qed.

Lemma add_lan_ok e s i k x : well s -> let s' := fst (add_lan e s i k x) in
  well s' /\ s_imps s' = s_imps s /\ s_timers s' = s_timers s /\
  (forall j k', has s' j k' <-> has s j k' \/ (j = i_id i /\ k' = k)) /\
  (forall d k', isin (s_ann s') d k' <-> isin (s_ann s) d k' \/ (~ has s (i_id i) k /\ k' = k /\ In d (e_doms e) /\ covers (i_conf i) d = true)) /\
  (exists l, In l (s_lans s') /\ l_id l = snd (add_lan e s i k x)).
Proof.
  intros W. unfold add_lan. pose proof (find_lan s (i_id i) k) as F. destruct (find _ _) as [l|].
  - cbn. split; [exact W|]. split; [reflexivity|]. split; [reflexivity|]. split; [|split].
    + intros j k'. split; [auto|]. intros [H|[-> ->]]; [exact H|]. exists l. exact F.
    + intros d k'. split; [auto|]. intros [H|[H _]]; [exact H|]. exfalso. apply H. exists l. exact F.
    + exists l. split; [apply F|reflexivity].
  - cbn. destruct W as [W1 [W2 W3]]. split; [|split; [reflexivity|split; [reflexivity|split; [|split]]]].
    + split; [|split].
      * cbn. intros l [<-|H]; cbn; [lia|]. apply W1 in H. lia.
      * cbn. intros l l' [<-|H] [<-|H'] E; cbn in E; auto; [apply W1 in H'|apply W1 in H]; lia.
      * cbn. intros l l' [<-|H] [<-|H'] E E'; cbn in E, E'; auto; exfalso; apply F; [exists l'|exists l]; auto.
    + intros j k'. split.
      * intros [l [[<-|H] [H1 H2]]]; cbn in *; [right; auto|left; exists l; auto].
      * intros [[l [H1 H2]]|[-> ->]]; [exists l; cbn; auto|]. eexists. split; [left; reflexivity|]. split; reflexivity.
    + intros d k'. rewrite isin_add_all. tauto.
    + eexists. split; [left; reflexivity|reflexivity].
Qed.
Lemma destroy_lan_ok e s i l : well s -> In l (s_lans s) -> l_imp l = i_id i -> let s' := destroy_lan e s i l in
  well s' /\ s_imps s' = s_imps s /\ s_timers s' = s_timers s /\
  (forall j k', has s' j k' <-> has s j k' /\ ~ (j = i_id i /\ k' = l_key l)) /\
  (forall d k', isin (s_ann s') d k' <-> isin (s_ann s) d k' /\ ~ (k' = l_key l /\ In d (e_doms e) /\ covers (i_conf i) d = true)).
Proof.
  intros [W1 [W2 W3]] I0 E0. cbn.
  assert (Q : forall x, In x (filter (fun x => negb (l_id x =? l_id l)) (s_lans s)) <-> In x (s_lans s) /\ x <> l).
  { intro x. rewrite filter_In. split; intros [H1 H2]; (split; [exact H1|]).
    - intros ->. lia.
    - destruct (l_id x =? l_id l) eqn:Q; [|reflexivity]. exfalso. apply H2. apply W2; auto. lia. }
  split; [|split; [reflexivity|split; [reflexivity|split]]].
  - split; [|split]; cbn.
    + intros x H. apply Q in H as [H _]. auto.
    + intros x y H H'. apply Q in H as [H _]. apply Q in H' as [H' _]. auto.
    + intros x y H H'. apply Q in H as [H _]. apply Q in H' as [H' _]. auto.
  - intros j k'. split.
    + intros [x [H [H1 H2]]]. cbn in H. apply Q in H as [H N]. split; [exists x; auto|]. intros [-> ->]. apply N. apply W3; auto; lia.
    + intros [[x [H [H1 H2]]] N]. exists x. split; [|auto]. cbn. apply Q. split; [exact H|]. intros ->. apply N. split; lia.
  - intros d k'. apply isin_drop_all.
Qed.

(** ** Events of routes *)
Section Fixed.
Variable e : env.
Definition calm_imps (l : list import) : Prop := forall i, In i l -> c_aging (i_conf i) = 0.
Definition uniq (l : list import) : Prop := forall i j, In i l -> In j l -> i_id i = i_id j -> i = j.
Definition tied (l : list import) (s : st) : Prop := forall d k, In d (e_doms e) ->
  (isin (s_ann s) d k <-> exists i, In i l /\ has s (i_id i) k /\ covers (i_conf i) d = true).

Lemma set_all r L : uniq L -> calm_imps L -> forall l s, (forall i, In i l -> In i L) -> well s -> tied L s ->
  let s' := fold_left (one_event e r true) l s in
  well s' /\ tied L s' /\ s_imps s' = s_imps s /\ s_timers s' = s_timers s /\
  (forall j k, has s' j k <-> has s j k \/ exists i, In i l /\ fits (i_conf i) r = true /\ j = i_id i /\ k = r_key r).
Proof.
  intros U C. induction l as [|i l IH]; intros s Sub W T; cbn [fold_left].
  { split; [exact W|]. split; [exact T|]. split; [reflexivity|]. split; [reflexivity|]. intros j k. split; [auto|].
    intros [H|[i [[] _]]]. exact H. }
  assert (X : let s1 := one_event e r true s i in well s1 /\ tied L s1 /\ s_imps s1 = s_imps s /\ s_timers s1 = s_timers s /\
    (forall j k, has s1 j k <-> has s j k \/ (fits (i_conf i) r = true /\ j = i_id i /\ k = r_key r))).
  { cbn zeta. unfold one_event. destruct (fits (i_conf i) r).
    2:{ split; [exact W|]. split; [exact T|]. split; [reflexivity|]. split; [reflexivity|]. intros j k. split; [auto|].
        intros [H|[H _]]; [exact H|discriminate]. }
    cbv zeta. set (m := if _ >? 255 then 255 else _).
    pose proof (add_lan_ok e s i (r_key r) m W) as A. destruct (add_lan e s i (r_key r) m) as [s1 t]. cbn [fst snd] in A. cbv beta iota.
    rewrite (C i (Sub i (or_introl eq_refl))). cbn. destruct A as [A1 [A2 [A3 [A4 [A5 _]]]]].
    split; [exact A1|]. split; [|split; [exact A2|split; [exact A3|]]].
    - intros d k Dd. rewrite A5, (T d k Dd). split.
      + intros [[j [H1 [H2 H3]]]|[_ [-> [_ H]]]].
        * exists j. split; [exact H1|]. split; [apply A4; auto|exact H3].
        * exists i. split; [apply Sub; left; reflexivity|]. split; [apply A4; auto|exact H].
      + intros [j [H1 [H2 H3]]]. apply A4 in H2 as [H2|[H2 H4]]; [left; exists j; auto|].
        assert (j = i) by (apply U; auto; apply Sub; left; reflexivity). subst j k.
        pose proof (find_lan s (i_id i) (r_key r)) as F. destruct (find _ _) as [x|].
        * left. exists i. split; [exact H1|]. split; [exists x; exact F|exact H3].
        * right. auto.
    - intros j k. rewrite A4. tauto. }
  cbn zeta in X. destruct X as [X1 [X2 [X3 [X4 X5]]]].
  destruct (IH (one_event e r true s i) (fun j H => Sub j (or_intror H)) X1 X2) as [Y1 [Y2 [Y3 [Y4 Y5]]]].
  split; [exact Y1|]. split; [exact Y2|]. split; [congruence|]. split; [congruence|].
  intros j k. rewrite Y5, X5. split.
  - intros [[H|H]|[x [H1 H2]]]; [auto|right; exists i; cbn; tauto|right; exists x; cbn; tauto].
  - intros [H|[x [[<-|H1] H2]]]; [auto|left; right; exact H2|right; exists x; tauto].
Qed.

Lemma del_all r L : uniq L -> forall l s, (forall i, In i l -> In i L) -> well s ->
  (forall d k, In d (e_doms e) -> k <> r_key r -> (isin (s_ann s) d k <-> exists i, In i L /\ has s (i_id i) k /\ covers (i_conf i) d = true)) ->
  (forall d, In d (e_doms e) -> isin (s_ann s) d (r_key r) -> exists i, In i L /\ has s (i_id i) (r_key r) /\ covers (i_conf i) d = true) ->
  let s' := fold_left (one_event e r false) l s in
  well s' /\ s_imps s' = s_imps s /\ s_timers s' = s_timers s /\
  (forall d k, In d (e_doms e) -> k <> r_key r -> (isin (s_ann s') d k <-> exists i, In i L /\ has s' (i_id i) k /\ covers (i_conf i) d = true)) /\
  (forall d, In d (e_doms e) -> isin (s_ann s') d (r_key r) -> exists i, In i L /\ has s' (i_id i) (r_key r) /\ covers (i_conf i) d = true) /\
  (forall j k, has s' j k <-> has s j k /\ ~ exists i, In i l /\ fits (i_conf i) r = true /\ j = i_id i /\ k = r_key r).
Proof.
  intros U. induction l as [|i l IH]; intros s Sub W T1 T2; cbn [fold_left].
  { repeat (split; [solve [auto]|]). intros j k. split; [|tauto]. intro H. split; [exact H|]. intros [i [[] _]]. }
  assert (X : let s1 := one_event e r false s i in well s1 /\ s_imps s1 = s_imps s /\ s_timers s1 = s_timers s /\
    (forall d k, In d (e_doms e) -> k <> r_key r -> (isin (s_ann s1) d k <-> exists i, In i L /\ has s1 (i_id i) k /\ covers (i_conf i) d = true)) /\
    (forall d, In d (e_doms e) -> isin (s_ann s1) d (r_key r) -> exists i, In i L /\ has s1 (i_id i) (r_key r) /\ covers (i_conf i) d = true) /\
    (forall j k, has s1 j k <-> has s j k /\ ~ (fits (i_conf i) r = true /\ j = i_id i /\ k = r_key r))).
  { cbn zeta. unfold one_event. destruct (fits (i_conf i) r).
    2:{ repeat (split; [solve [auto]|]). intros j k. split; [|tauto]. intro H. split; [exact H|]. intros [G _]. discriminate. }
    pose proof (find_lan s (i_id i) (r_key r)) as F. destruct (find _ _) as [l0|].
    2:{ repeat (split; [solve [auto]|]). intros j k. split; [|tauto]. intro H. split; [exact H|]. intros [_ [-> ->]]. contradiction. }
    destruct F as [F1 [F2 F3]]. destruct (destroy_lan_ok e s i l0 W F1 F2) as [A1 [A2 [A3 [A4 A5]]]]. rewrite F3 in A4, A5.
    split; [exact A1|]. split; [exact A2|]. split; [exact A3|]. split; [|split].
    - intros d k Dd N. rewrite A5, (T1 d k Dd N). split.
      + intros [[j [H1 [H2 H3]]] _]. exists j. split; [exact H1|]. split; [apply A4; tauto|exact H3].
      + intros [j [H1 [H2 H3]]]. apply A4 in H2 as [H2 _]. split; [exists j; auto|]. tauto.
    - intros d Dd H. apply A5 in H as [H N]. destruct (T2 d Dd H) as [j [H1 [H2 H3]]]. exists j. split; [exact H1|]. split; [|exact H3].
      apply A4. split; [exact H2|]. intros [E _]. assert (j = i) by (apply U; auto; apply Sub; left; reflexivity). subst j. apply N. auto.
    - intros j k. rewrite A4. tauto. }
  cbn zeta in X. destruct X as [X1 [X2 [X3 [X4 [X5 X6]]]]].
  destruct (IH (one_event e r false s i) (fun j H => Sub j (or_intror H)) X1 X4 X5) as [Y1 [Y2 [Y3 [Y4 [Y5 Y6]]]]].
  split; [exact Y1|]. split; [congruence|]. split; [congruence|]. split; [exact Y4|]. split; [exact Y5|].
  intros j k. rewrite Y6, X6. split.
  - intros [[H1 H2] H3]. split; [exact H1|]. intros [x [[<-|H4] H5]]; [tauto|]. apply H3. exists x. tauto.
  - intros [H1 H2]. split; [split; [exact H1|]|].
    + intro H. apply H2. exists i. cbn. tauto.
    + intros [x [H3 H4]]. apply H2. exists x. cbn. tauto.
Qed.
End Fixed.

(** ** Histories *)
Lemma no_events_current os : (forall o, In o os -> ~ is_event o) -> forall r, ~ current os r.
Proof.
  induction os as [|o t IH]; intros N r H; [exact H|].
  assert (G : forall o, In o t -> ~ is_event o) by (intros x Hx; apply N; right; exact Hx).
  destruct o as [x b|x|n p]; cbn in H; [|exact (IH G r H)|exact (IH G r H)]. exact (N _ (or_introl eq_refl) Logic.I).
Qed.
Lemma alone_unique os : alone os -> forall x y, current os x -> current os y -> r_key x = r_key y -> x = y.
Proof.
  induction os as [|o t IH]; intros A x y Hx Hy E; [destruct Hx|].
  destruct o as [r [|]|tm|n p]; cbn in A, Hx, Hy; try exact (IH A x y Hx Hy E).
  - destruct A as [A1 A2]. destruct Hx as [->|[Hx _]], Hy as [->|[Hy _]]; auto.
    symmetry. apply A1; auto.
  - destruct A as [_ A]. destruct Hx as [Hx _], Hy as [Hy _]. exact (IH A x y Hx Hy E).
Qed.
Lemma put_in i l x : In x (put i l) <-> x = i \/ In x l.
Proof.
  induction l as [|y r IH]; cbn; [intuition|]. destruct (i_name i <? i_name y); cbn; [intuition|]. rewrite IH. intuition.
Qed.

Record inv (e : env) (os : list op) (s : st) : Prop := {
  v_well : well s;
  v_timers : s_timers s = [];
  v_uniq : uniq (s_imps s);
  v_calm : calm_imps (s_imps s);
  v_next : forall i, In i (s_imps s) -> i_id i < s_next s;
  v_names : forall i j, In i (s_imps s) -> In j (s_imps s) -> i_name i = i_name j -> i = j;
  v_live : forall n c, live os n c <-> exists i, In i (s_imps s) /\ i_name i = n /\ i_conf i = c;
  v_has : forall i k, In i (s_imps s) ->
    (has s (i_id i) k <-> exists r, current os r /\ r_key r = k /\ eligible e r = true /\ fits (i_conf i) r = true);
  v_tied : tied e (s_imps s) s;
  v_empty : (forall o, In o os -> ~ is_event o) -> s_lans s = [] /\ s_ann s = [] }.

Lemma next_mono e r set l : forall s, s_next s <= s_next (fold_left (one_event e r set) l s).
Proof.
  induction l as [|i l IH]; intro s; cbn [fold_left]; [lia|]. etransitivity; [|apply IH]. unfold one_event.
  destruct (fits (i_conf i) r); [|lia]. destruct set.
  - cbv zeta. unfold add_lan. destruct (find _ _); destruct (c_aging (i_conf i) =? 0); cbn; lia.
  - destruct (find _ _); cbn; lia.
Qed.

Lemma inv_section e os s n c : inv e os s -> (forall o, In o os -> ~ is_event o) -> c_aging c = 0 ->
  inv e (Section n (Some c) :: os) (cfg_changed s n (Some c)).
Proof.
  intros V N A. destruct (v_empty _ _ _ V N) as [L0 A0]. unfold cfg_changed.
  assert (P : forall l nx tm, let s' := {| s_imps := l; s_lans := s_lans s; s_timers := tm; s_ann := s_ann s; s_next := nx |} in
    well s' /\ (forall i k, has s' i k <-> False) /\ tied e l s').
  { intros l nx tm. cbn zeta. split; [|split].
    - unfold well. cbn. rewrite L0. (split; [intros x []|split; intros x y []]).
    - intros i k. split; [|intros []]. intros [x [H _]]. cbn in H. rewrite L0 in H. destruct H.
    - intros d k Dd. cbn. rewrite A0. split; [intros [m [x []]]|]. intros [i [_ [[x [H _]] _]]]. cbn in H. rewrite L0 in H. destruct H. }
  destruct (existsb (fun i => i_name i =? n) (s_imps s)) eqn:X.
  - apply existsb_exists in X as [i0 [I0 E0]]. assert (E1 : i_name i0 = n) by lia. clear E0.
    set (f := fun i => if i_name i =? n then {| i_id := i_id i; i_name := n; i_conf := c |} else i).
    assert (M : forall i, i_id (f i) = i_id i /\ i_name (f i) = i_name i).
    { intro i. unfold f. destruct (i_name i =? n) eqn:Q; cbn; [|auto]. split; [reflexivity|lia]. }
    assert (F : forall x, In x (map f (s_imps s)) <-> exists i, In i (s_imps s) /\ f i = x).
    { intro x. rewrite in_map_iff. split; intros [i [H1 H2]]; exists i; auto. }
    destruct (P (map f (s_imps s)) (s_next s) (s_timers s)) as [P1 [P2 P3]]. cbn zeta in P1, P2, P3.
    constructor; cbn [s_imps s_lans s_timers s_ann s_next].
    + exact P1.
    + exact (v_timers _ _ _ V).
    + intros x y Hx Hy E. apply F in Hx as [i [Hi <-]]. apply F in Hy as [j [Hj <-]].
      destruct (M i) as [Mi _], (M j) as [Mj _]. f_equal. apply (v_uniq _ _ _ V); auto. congruence.
    + intros x Hx. apply F in Hx as [i [Hi <-]]. unfold f. destruct (i_name i =? n); [exact A|apply (v_calm _ _ _ V); exact Hi].
    + intros x Hx. apply F in Hx as [i [Hi <-]]. destruct (M i) as [-> _]. apply (v_next _ _ _ V). exact Hi.
    + intros x y Hx Hy E. apply F in Hx as [i [Hi <-]]. apply F in Hy as [j [Hj <-]].
      destruct (M i) as [_ Mi], (M j) as [_ Mj]. f_equal. apply (v_names _ _ _ V); auto. congruence.
    + intros n' c'. cbn [live]. rewrite (v_live _ _ _ V). split.
      * intros [[<- E]|[Nn [i [H1 [H2 H3]]]]].
        -- injection E as <-. exists (f i0). split; [apply F; exists i0; auto|]. unfold f. rewrite E1, Z.eqb_refl. auto.
        -- exists (f i). split; [apply F; exists i; auto|]. unfold f. destruct (i_name i =? n) eqn:Q; [lia|auto].
      * intros [x [H1 [H2 H3]]]. apply F in H1 as [i [Hi <-]]. unfold f in *. destruct (i_name i =? n) eqn:Q; cbn in *.
        -- left. split; [exact H2|f_equal; exact H3].
        -- right. split; [lia|]. exists i. auto.
    + intros i k Hi. rewrite P2. split; [intros []|]. intros [r [H _]]. exact (no_events_current os N r H).
    + exact P3.
    + intros _. auto.
  - assert (X' : forall i, In i (s_imps s) -> i_name i <> n).
    { intros i Hi E. rewrite <- Bool.not_true_iff_false in X. apply X. apply existsb_exists. exists i. split; [exact Hi|lia]. }
    set (i0 := {| i_id := s_next s; i_name := n; i_conf := c |}).
    destruct (P (put i0 (s_imps s)) (s_next s + 1) (s_timers s)) as [P1 [P2 P3]]. cbn zeta in P1, P2, P3.
    constructor; cbn [s_imps s_lans s_timers s_ann s_next].
    + exact P1.
    + exact (v_timers _ _ _ V).
    + intros x y Hx Hy E. apply put_in in Hx as [->|Hx]; apply put_in in Hy as [->|Hy]; auto.
      * pose proof (v_next _ _ _ V y Hy). cbn in E. lia.
      * pose proof (v_next _ _ _ V x Hx). cbn in E. lia.
      * apply (v_uniq _ _ _ V); auto.
    + intros x Hx. apply put_in in Hx as [->|Hx]; [exact A|apply (v_calm _ _ _ V); exact Hx].
    + intros x Hx. apply put_in in Hx as [->|Hx]; [cbn; lia|]. pose proof (v_next _ _ _ V x Hx). lia.
    + intros x y Hx Hy E. apply put_in in Hx as [->|Hx]; apply put_in in Hy as [->|Hy]; auto.
      * exfalso. apply (X' y Hy). symmetry. exact E.
      * exfalso. apply (X' x Hx). exact E.
      * apply (v_names _ _ _ V); auto.
    + intros n' c'. cbn [live]. rewrite (v_live _ _ _ V). split.
      * intros [[<- E]|[Nn [i [H1 [H2 H3]]]]].
        -- injection E as <-. exists i0. split; [apply put_in; auto|]. auto.
        -- exists i. split; [apply put_in; auto|auto].
      * intros [x [H1 [H2 H3]]]. apply put_in in H1 as [->|Hi]; cbn in *.
        -- left. split; [exact H2|f_equal; exact H3].
        -- right. split; [rewrite <- H2; intro Q; apply (X' x Hi); auto|]. exists x. auto.
    + intros i k Hi. rewrite P2. split; [intros []|]. intros [r [H _]]. exact (no_events_current os N r H).
    + exact P3.
    + intros _. auto.
Qed.

Lemma inv_set e os s r : inv e os s -> (forall x, current os x -> r_key x = r_key r -> x = r) ->
  inv e (Event r true :: os) (rt_event e s r true).
Proof.
  intros V A. unfold rt_event. destruct (eligible e r) eqn:El.
  - pose proof (set_all e r (s_imps s) (v_uniq _ _ _ V) (v_calm _ _ _ V) (s_imps s) s (fun i H => H) (v_well _ _ _ V) (v_tied _ _ _ V)) as X.
    cbn zeta in X. pose proof (next_mono e r true (s_imps s) s) as Nx. set (s' := fold_left _ _ _) in *. destruct X as [X1 [X2 [X3 [X4 X5]]]].
    constructor; rewrite ?X3.
    + exact X1.
    + rewrite X4. exact (v_timers _ _ _ V).
    + exact (v_uniq _ _ _ V).
    + exact (v_calm _ _ _ V).
    + intros i Hi. pose proof (v_next _ _ _ V i Hi). lia.
    + exact (v_names _ _ _ V).
    + exact (v_live _ _ _ V).
    + intros i k Hi. rewrite X5, (v_has _ _ _ V i k Hi). cbn [current]. split.
      * intros [[x [H1 [H2 [H3 H4]]]]|[j [H1 [H2 [H3 ->]]]]].
        -- destruct (Z.eq_dec (r_key x) (r_key r)) as [Q|Q].
           ++ rewrite (A x H1 Q) in *. exists r. auto.
           ++ exists x. split; [right; split; [exact H1|tauto]|auto].
        -- assert (i = j) by (apply (v_uniq _ _ _ V); auto). subst j. exists r. auto.
      * intros [x [[->|[H1 _]] [H2 [H3 H4]]]]; [right; exists i; auto|left; exists x; auto].
    + exact X2.
    + intro N. exfalso. exact (N _ (or_introl eq_refl) Logic.I).
  - constructor; try solve [apply V].
    + intros i k Hi. rewrite (v_has _ _ _ V i k Hi). cbn [current]. split.
      * intros [x [H1 [H2 [H3 H4]]]]. exists x. split; [right; split; [exact H1|]|auto]. intros [Q _]. rewrite (A x H1 Q) in H3. congruence.
      * intros [x [[->|[H1 _]] [H2 [H3 H4]]]]; [congruence|exists x; auto].
    + intro N. exfalso. exact (N _ (or_introl eq_refl) Logic.I).
Qed.

Lemma inv_del e os s r : inv e os s -> alone os -> current os r -> inv e (Event r false :: os) (rt_event e s r false).
Proof.
  intros V A C. pose proof (alone_unique os A) as Un. unfold rt_event. destruct (eligible e r) eqn:El.
  - assert (T2 : forall d, In d (e_doms e) -> isin (s_ann s) d (r_key r) ->
      exists i, In i (s_imps s) /\ has s (i_id i) (r_key r) /\ covers (i_conf i) d = true) by (intros d Dd H; apply (v_tied _ _ _ V); auto).
    pose proof (del_all e r (s_imps s) (v_uniq _ _ _ V) (s_imps s) s (fun i H => H) (v_well _ _ _ V)
      (fun d k Dd _ => v_tied _ _ _ V d k Dd) T2) as X.
    cbn zeta in X. pose proof (next_mono e r false (s_imps s) s) as Nx. set (s' := fold_left _ _ _) in *.
    destruct X as [X1 [X2 [X3 [X4 [X5 X6]]]]].
    assert (HH : forall i k, In i (s_imps s) ->
      (has s' (i_id i) k <-> exists x, current (Event r false :: os) x /\ r_key x = k /\ eligible e x = true /\ fits (i_conf i) x = true)).
    { intros i k Hi. rewrite X6, (v_has _ _ _ V i k Hi). cbn [current]. split.
      - intros [[x [H1 [H2 [H3 H4]]]] N]. exists x. split; [split; [exact H1|]|auto]. intros ->. apply N. exists i. auto.
      - intros [x [[H1 H1'] [H2 [H3 H4]]]]. split; [exists x; auto|]. intros [j [_ [_ [_ Q]]]]. apply H1'. apply Un; auto. congruence. }
    constructor; rewrite ?X2.
    + exact X1.
    + rewrite X3. exact (v_timers _ _ _ V).
    + exact (v_uniq _ _ _ V).
    + exact (v_calm _ _ _ V).
    + intros i Hi. pose proof (v_next _ _ _ V i Hi). lia.
    + exact (v_names _ _ _ V).
    + exact (v_live _ _ _ V).
    + exact HH.
    + intros d k Dd. destruct (Z.eq_dec k (r_key r)) as [->|Nk]; [|apply X4; auto]. split; [apply X5; exact Dd|].
      intros [i [H1 [H2 H3]]]. exfalso. apply (HH i _ H1) in H2 as [x [[H4 H5] [H6 _]]]. apply H5. apply Un; auto.
    + intro N. exfalso. exact (N _ (or_introl eq_refl) Logic.I).
  - constructor; try solve [apply V].
    + intros i k Hi. rewrite (v_has _ _ _ V i k Hi). cbn [current]. split.
      * intros [x [H1 [H2 [H3 H4]]]]. exists x. split; [split; [exact H1|]|auto]. intros ->. congruence.
      * intros [x [[H1 _] [H2 [H3 H4]]]]. exists x. auto.
    + intro N. exfalso. exact (N _ (or_introl eq_refl) Logic.I).
Qed.

Lemma inv_init e : inv e [] init.
Proof.
  constructor; cbn; auto.
  - (split; [intros x []|split; intros x y []]).
  - intros i j [].
  - intros i [].
  - intros i [].
  - intros i j [].
  - intros n c. split; [intros []|intros [i [[] _]]].
  - intros i k [].
  - intros d k Dd. split; [intros [m [x []]]|intros [i [[] _]]].
Qed.
Lemma inv_step e os s o : inv e os s -> sections_first (o :: os) -> alone (o :: os) -> no_aging (o :: os) ->
  exists s', step e s o = Ok s' /\ inv e (o :: os) s'.
Proof.
  intros V F A G. destruct o as [r [|]|t|n [c|]]; cbn [step].
  - eexists. split; [reflexivity|]. apply inv_set; [exact V|apply A].
  - eexists. split; [reflexivity|]. apply inv_del; [exact V|apply A|apply A].
  - rewrite (v_timers _ _ _ V). cbn. eexists. split; [reflexivity|].
    destruct V. constructor; auto. intro N. apply v_empty0. intros o Ho. apply N. right. exact Ho.
  - eexists. split; [reflexivity|]. apply inv_section; [exact V|apply F|]. apply (G n). left. reflexivity.
  - destruct F as [F _]. contradiction.
Qed.
Lemma alone_tail o os : alone (o :: os) -> alone os.
Proof. destruct o as [r [|]|t|n p]; cbn; tauto. Qed.
Lemma first_tail o os : sections_first (o :: os) -> sections_first os.
Proof. destruct o as [r [|]|t|n p]; cbn; tauto. Qed.
Lemma run_app e os os' : forall s, run e s (os ++ os') = match run e s os with Ok s => run e s os' | Bad => Bad end.
Proof. induction os as [|o t IH]; intro s; cbn; [reflexivity|]. destruct (step e s o); auto. Qed.
Lemma inv_run e os : sections_first os -> alone os -> no_aging os -> exists s, run e init (rev os) = Ok s /\ inv e os s.
Proof.
  induction os as [|o t IH]; intros F A G; [exists init; split; [reflexivity|apply inv_init]|].
  destruct (IH (first_tail _ _ F) (alone_tail _ _ A) (fun n c H => G n c (or_intror H))) as [s [E V]].
  destruct (inv_step e t s o V F A G) as [s' [E' V']]. exists s'. split; [|exact V'].
  cbn [rev]. rewrite run_app, E. cbn. rewrite E'. reflexivity.
Qed.

(** sections that are there before the routes, one route for a destination at a time, no aging: the attached networks are exactly the
    destinations of the routes the sections mean; missing: changes of the sections and several routes for a destination *)
Theorem C159_exact_partial e os : sections_first (rev os) -> alone (rev os) -> no_aging os -> exists s, run e init os = Ok s /\ exact e os s.
Proof.
  intros F A G. assert (G' : no_aging (rev os)) by (intros n c H; apply (G n); apply in_rev; exact H).
  destruct (inv_run e (rev os) F A G') as [s [E V]]. rewrite rev_involutive in E. exists s. split; [exact E|].
  intros d k Dd. unfold attached. fold (isin (s_ann s) d k). rewrite (v_tied _ _ _ V d k Dd). split.
  - intros [i [H1 [H2 H3]]]. apply (v_has _ _ _ V i k H1) in H2 as [r [H4 [H5 [H6 H7]]]]. exists r, (i_name i), (i_conf i).
    split; [exact H4|]. split; [exact H5|]. split; [apply importable_iff; exact H6|]. split; [apply (v_live _ _ _ V); exists i; auto|].
    split; [apply meant_iff; exact H7|apply any_iff; exact H3].
  - intros [r [n [c [H1 [H2 [H3 [H4 [H5 H6]]]]]]]]. apply (v_live _ _ _ V) in H4 as [i [I1 [I2 I3]]]. subst c. exists i. split; [exact I1|].
    split; [|apply any_iff; exact H6]. apply (v_has _ _ _ V i k I1). exists r. rewrite importable_iff, meant_iff. auto.
Qed.

(** the values of attached networks *)
Definition vals (e : env) (os : list op) (s : st) : Prop := forall d k m x, In d (e_doms e) -> In (d, k, m, x) (s_ann s) -> exists i r,
  In i (s_imps s) /\ covers (i_conf i) d = true /\ current os r /\ r_key r = k /\ eligible e r = true /\ fits (i_conf i) r = true /\
  m = c_metric (i_conf i) /\ x = distance r.
Lemma drop_in d k a x : In x (drop d k a) -> In x a.
Proof. intro H. apply filter_In in H. apply H. Qed.
Lemma add_vals c k m x doms : forall a y, In y (fold_left (fun a d => if covers c d then lan_add d k m x a else a) doms a) ->
  In y a \/ exists d, covers c d = true /\ y = (d, k, m, x).
Proof.
  induction doms as [|d r IH]; intros a y H; cbn [fold_left] in H; [auto|]. apply IH in H as [H|H]; [|auto].
  destruct (covers c d) eqn:C; [|auto]. destruct H as [<-|H]; [right; exists d; auto|left; apply (drop_in d k a y H)].
Qed.
Lemma drop_vals c k doms : forall a y, In y (fold_left (fun a d => if covers c d then drop d k a else a) doms a) -> In y a.
Proof.
  induction doms as [|d r IH]; intros a y H; cbn [fold_left] in H; [auto|]. apply IH in H. destruct (covers c d); [|auto]. apply (drop_in d k a y H).
Qed.
Lemma set_vals e r l : forall s y, In y (s_ann (fold_left (one_event e r true) l s)) -> In y (s_ann s) \/
  exists i d, In i l /\ fits (i_conf i) r = true /\ covers (i_conf i) d = true /\ y = (d, r_key r, c_metric (i_conf i), distance r).
Proof.
  induction l as [|i l IH]; intros s y H; cbn [fold_left] in H; [auto|]. apply IH in H as [H|[j [d [H1 H2]]]].
  2:{ right. exists j, d. cbn. tauto. }
  unfold one_event in H. destruct (fits (i_conf i) r) eqn:Ft; [|auto]. cbv zeta in H.
  assert (X : (let m := if r_metric r <? 1 then 1 else r_metric r in if m >? 255 then 255 else m) = distance r).
  { cbv zeta. unfold distance. destruct (r_metric r <? 1) eqn:Q; [cbn; lia|]. destruct (r_metric r >? 255) eqn:Q'; lia. }
  cbv zeta in X. rewrite X in H. unfold add_lan in H. destruct (find _ _) in H.
  - destruct (c_aging (i_conf i) =? 0); cbn in H; auto.
  - destruct (c_aging (i_conf i) =? 0); cbn in H; (apply add_vals in H as [H|[d [H1 H2]]]; [auto|]; right; exists i, d; cbn; auto).
Qed.
Lemma del_vals e r l : forall s y, In y (s_ann (fold_left (one_event e r false) l s)) -> In y (s_ann s).
Proof.
  induction l as [|i l IH]; intros s y H; cbn [fold_left] in H; [auto|]. apply IH in H.
  unfold one_event in H. destruct (fits (i_conf i) r); [|auto]. destruct (find _ _) in H; [|auto]. apply drop_vals in H. exact H.
Qed.
Lemma event_imps e r set l : forall s, s_imps (fold_left (one_event e r set) l s) = s_imps s.
Proof.
  induction l as [|i l IH]; intro s; cbn [fold_left]; [reflexivity|]. rewrite IH. unfold one_event. destruct (fits (i_conf i) r); [|auto].
  destruct set; [|destruct (find _ _); auto]. cbv zeta. unfold add_lan. destruct (find _ _); destruct (c_aging (i_conf i) =? 0); auto.
Qed.
Lemma vals_run e os : sections_first os -> alone os -> no_aging os -> exists s, run e init (rev os) = Ok s /\ vals e os s.
Proof.
  induction os as [|o t IH]; intros F A G; [exists init; split; [reflexivity|intros d k m x _ []]|].
  destruct (IH (first_tail _ _ F) (alone_tail _ _ A) (fun n c H => G n c (or_intror H))) as [s [E V]].
  destruct (inv_run e t (first_tail _ _ F) (alone_tail _ _ A) (fun n c H => G n c (or_intror H))) as [s0 [E0 I0]].
  assert (s0 = s) by congruence. subst s0. destruct (inv_run e (o :: t) F A G) as [s' [E' I']].
  exists s'. split; [exact E'|]. cbn [rev] in E'. rewrite run_app, E in E'. cbn [run] in E'.
  destruct (step e s o) as [s1|] eqn:St; [|discriminate]. injection E' as ->.
  destruct o as [r [|]|tm|n p]; cbn [step] in St.
  - injection St as <-. intros d k m x Dd H. pose proof (event_imps e r true (s_imps s) s) as Im. unfold rt_event in *. destruct (eligible e r) eqn:El.
    + rewrite Im. apply set_vals in H as [H|[i [d' [H1 [H2 [H3 H4]]]]]].
      * destruct (V d k m x Dd H) as [i [r' [V1 [V2 [V3 [V4 V5]]]]]]. exists i, r'. split; [exact V1|]. split; [exact V2|]. split; [|auto]. cbn.
        destruct (Z.eq_dec (r_key r') (r_key r)) as [Q|Q]; [left; apply A; auto|right; split; [exact V3|tauto]].
      * injection H4 as -> -> -> ->. exists i, r. split; [exact H1|]. split; [exact H3|]. split; [left; reflexivity|]. auto.
    + destruct (V d k m x Dd H) as [i [r' [V1 [V2 [V3 [V4 V5]]]]]]. exists i, r'. split; [exact V1|]. split; [exact V2|]. split; [|auto]. cbn.
      destruct (Z.eq_dec (r_key r') (r_key r)) as [Q|Q]; [left; apply A; auto|right; split; [exact V3|tauto]].
  - injection St as <-. intros d k m x Dd H.
    assert (K : isin (s_ann (rt_event e s r false)) d k) by (exists m, x; exact H).
    apply (v_tied _ _ _ I' d k Dd) in K as [j [J1 [J2 _]]]. apply (v_has _ _ _ I' j k J1) in J2 as [y [[Y1 Y2] [Y3 _]]].
    assert (H' : In (d, k, m, x) (s_ann s) /\ s_imps (rt_event e s r false) = s_imps s).
    { unfold rt_event in *. destruct (eligible e r); [|auto]. split; [apply (del_vals e r _ _ _ H)|apply event_imps]. }
    destruct H' as [H1 H2]. rewrite H2. destruct (V d k m x Dd H1) as [i [r' [V1 [V2 [V3 [V4 V5]]]]]]. exists i, r'. split; [exact V1|]. split; [exact V2|].
    split; [|auto]. cbn. split; [exact V3|]. intros ->. apply Y2. apply (alone_unique t (alone_tail _ _ A)); auto. congruence.
  - rewrite (v_timers _ _ _ I0) in St. cbn in St. injection St as <-. exact V.
  - injection St as <-. intros d k m x Dd H. exfalso. destruct F as [_ [F _]]. destruct (v_empty _ _ _ I0 F) as [_ Z0].
    unfold cfg_changed in H. destruct p; cbn in H; rewrite Z0 in H; destruct H.
Qed.
(** they have the metric of a section that means a route to them, and the metric of this route, as far as it fits, as distance *)
Theorem C159_values_partial e os : sections_first (rev os) -> alone (rev os) -> no_aging os -> exists s, run e init os = Ok s /\
  forall d k m x, In d (e_doms e) -> In (d, k, m, x) (s_ann s) -> exists r n c, current (rev os) r /\ r_key r = k /\ importable e r /\
    live (rev os) n c /\ meant c r /\ any_or (c_domain c) d /\ m = c_metric c /\ x = distance r.
Proof.
  intros F A G. assert (G' : no_aging (rev os)) by (intros n c H; apply (G n); apply in_rev; exact H).
  destruct (vals_run e (rev os) F A G') as [s [E V]]. destruct (inv_run e (rev os) F A G') as [s0 [E0 I0]].
  assert (s0 = s) by congruence. subst s0. rewrite rev_involutive in E. exists s. split; [exact E|]. intros d k m x Dd H.
  destruct (V d k m x Dd H) as [i [r [V1 [V2 [V3 [V4 [V5 [V6 [V7 V8]]]]]]]]]. exists r, (i_name i), (i_conf i).
  split; [exact V3|]. split; [exact V4|]. split; [apply importable_iff; exact V5|]. split; [apply (v_live _ _ _ I0); exists i; auto|].
  split; [apply meant_iff; exact V6|]. split; [apply any_iff; exact V2|]. auto.
Qed.

(** ** Examples and what does not hold *)
Definition cf (dom acc metric aging : Z) : conf :=
  {| c_domain := dom; c_accepts := fun k => (k =? acc) || (acc =? 0); c_plen := -1; c_if := 0; c_table := -1; c_proto := -1; c_dist := -1;
     c_metric := metric; c_aging := aging |}.
Definition rt (k metric ifx : Z) : route :=
  {| r_key := k; r_plen := 24; r_special := false; r_unicast := true; r_table := 254; r_proto := 3; r_metric := metric; r_if := ifx |}.
Definition ex_env : env := {| e_doms := [0; 1]; e_own := [(254, 100)]; e_mesh := fun i => i =? 9 |}.
(** two sections, routes to 5 and 6, and one over a mesh interface; the route to 6 is removed *)
Definition ex_os : list op :=
  [Section 2 (Some (cf (-1) 5 7 0)); Section 1 (Some (cf 1 0 3 0)); Event (rt 5 1 2) true; Event (rt 6 2 2) true; Event (rt 7 2 9) true;
   Event (rt 5 1 2) true; Event (rt 6 2 2) false].
Example C159_ex : sections_first (rev ex_os) /\ alone (rev ex_os) /\ no_aging ex_os /\
  exists s, run ex_env init ex_os = Ok s /\ attached s 0 5 /\ attached s 1 5 /\ ~ attached s 1 6 /\ ~ attached s 1 7 /\
  exists s', run ex_env init (firstn 4 ex_os) = Ok s' /\ attached s' 1 6 /\ ~ attached s' 0 6.
Proof.
  split; [|split; [|split]].
  - cbn. repeat split; try discriminate; intros o H; repeat destruct H as [<-|H]; cbn; tauto.
  - cbn. repeat split; auto; try (intros x H E; repeat match goal with H : _ \/ _ |- _ => destruct H as [H|H] | H : _ /\ _ |- _ => destruct H end;
      subst; cbn in *; solve [reflexivity|lia|contradiction]).
    + right. split; [|cbn; lia]. right. split; [|cbn; lia]. left. reflexivity.
  - intros n c H. repeat (destruct H as [H|H]; [try discriminate H; injection H as <- <-; reflexivity|]). destruct H.
  - eexists. split; [vm_compute; reflexivity|]. unfold attached. cbn [s_ann]. split; [do 2 eexists; right; left; reflexivity|].
    split; [do 2 eexists; left; reflexivity|].
    split; [intros [m [x H]]; repeat (destruct H as [H|H]; [discriminate H|]); destruct H|].
    split; [intros [m [x H]]; repeat (destruct H as [H|H]; [discriminate H|]); destruct H|].
    eexists. split; [vm_compute; reflexivity|]. cbn [s_ann]. split; [do 2 eexists; left; reflexivity|].
    intros [m [x H]]; repeat (destruct H as [H|H]; [discriminate H|]); destruct H.
Qed.

Ltac no_net := let H := fresh in intros [? [? H]]; repeat (destruct H as [H|H]; [discriminate H|]); destruct H.
Ltac net := do 2 eexists; cbn; solve [auto 10].
(** two routes for a destination with different metrics: when one of them is removed, the network is not attached any more *)
Theorem C159_second_route_refuted : exists e c r r' s, let os := [Section 1 (Some c); Event r true; Event r' true; Event r' false] in
  r_key r = r_key r' /\ c_aging c = 0 /\ sections_first (rev os) /\ run e init os = Ok s /\ current (rev os) r /\ importable e r /\ meant c r /\
  live (rev os) 1 c /\ In 0 (e_doms e) /\ any_or (c_domain c) 0 /\ ~ attached s 0 (r_key r).
Proof.
  exists ex_env, (cf (-1) 0 3 0), (rt 5 1 2), (rt 5 2 2). eexists. cbn zeta.
  split; [reflexivity|]. split; [reflexivity|]. split; [cbn; repeat split; [discriminate|intros o []]|].
  split; [vm_compute; reflexivity|]. split; [|split; [|split; [|split; [|split; [|split]]]]].
  - cbn. split; [|discriminate]. right. split; [left; reflexivity|]. intros [_ [_ H]]. discriminate H.
  - unfold importable. cbn. repeat split. intros [H|[]]. discriminate H.
  - unfold meant, any_or. cbn. tauto.
  - cbn. tauto.
  - left. reflexivity.
  - left. reflexivity.
  - no_net.
Qed.
(** a route is replaced by one the section does not mean: the network stays attached *)
Theorem C159_replaced_route_refuted : exists e c r r' s, let os := [Section 1 (Some c); Event r true; Event r' true] in
  c_aging c = 0 /\ sections_first (rev os) /\ run e init os = Ok s /\ ~ importable e r' /\ (forall x, current (rev os) x -> x = r') /\
  In 0 (e_doms e) /\ attached s 0 (r_key r).
Proof.
  exists ex_env, (cf (-1) 0 3 0), (rt 5 1 2), (rt 5 1 9). eexists. cbn zeta.
  split; [reflexivity|]. split; [cbn; repeat split; [discriminate|intros o []]|]. split; [vm_compute; reflexivity|].
  split; [intros [_ [_ [_ H]]]; discriminate H|]. split.
  - intros x H. cbn in H. destruct H as [H|[[->|[[] _]] H]]; [exact H|]. exfalso. apply H. repeat split.
  - split; [left; reflexivity|net].
Qed.
(** the section is removed: the network stays attached, also when the route is removed afterwards *)
Theorem C159_removed_section_refuted : exists e c r s, let os := [Section 1 (Some c); Event r true; Section 1 None; Event r false] in
  c_aging c = 0 /\ alone (rev os) /\ run e init os = Ok s /\ (forall n c', ~ live (rev os) n c') /\ (forall x, ~ current (rev os) x) /\
  In 0 (e_doms e) /\ attached s 0 (r_key r).
Proof.
  exists ex_env, (cf (-1) 0 3 0), (rt 5 1 2). eexists. cbn zeta.
  split; [reflexivity|]. split; [cbn; tauto|]. split; [vm_compute; reflexivity|]. split; [|split; [|split]].
  - intros n c' H. cbn in H. destruct H as [[_ H]|[N [[H _]|[_ []]]]]; [discriminate H|contradiction].
  - intros x H. cbn in H. destruct H as [[->|[[] _]] H]. apply H. reflexivity.
  - left. reflexivity.
  - net.
Qed.
(** the section is changed from domain 0 to domain 1 and the kernel reports its routes again: the network stays attached for domain 0, also
    when the route is removed, and is never attached for domain 1 *)
Theorem C159_changed_section_refuted : exists e c c' r s s', let os := [Section 1 (Some c); Event r true; Section 1 (Some c'); Event r true] in
  c_domain c = 0 /\ c_domain c' = 1 /\ alone (rev os) /\ no_aging os /\ run e init os = Ok s /\ current (rev os) r /\ importable e r /\ meant c' r /\
  In 1 (e_doms e) /\ ~ attached s 1 (r_key r) /\
  run e s [Event r false] = Ok s' /\ (forall x, ~ current (rev (os ++ [Event r false])) x) /\ attached s' 0 (r_key r).
Proof.
  exists ex_env, (cf 0 0 3 0), (cf 1 0 3 0), (rt 5 1 2). do 2 eexists. cbn zeta.
  split; [reflexivity|]. split; [reflexivity|]. split; [cbn; repeat split; intros x H E; tauto|].
  split; [intros n c H; repeat (destruct H as [H|H]; [try discriminate H; injection H as <- <-; reflexivity|]); destruct H|].
  split; [vm_compute; reflexivity|]. split; [left; reflexivity|]. split; [unfold importable; cbn; repeat split; intros [H|[]]; discriminate H|].
  split; [unfold meant, any_or; cbn; tauto|]. split; [right; left; reflexivity|]. split; [no_net|]. split; [vm_compute; reflexivity|].
  split; [|net]. intros x H. cbn in H. destruct H as [[->|[[->|[[] _]] H]] N]; apply N; reflexivity.
Qed.

(** ** C160: timers and objects *)
Lemma quiet_event e r set : forall l s, calm_imps l ->
  s_timers (fold_left (one_event e r set) l s) = s_timers s /\ s_imps (fold_left (one_event e r set) l s) = s_imps s.
Proof.
  induction l as [|i l IH]; intros s C; cbn [fold_left]; [auto|].
  destruct (IH (one_event e r set s i) (fun j H => C j (or_intror H))) as [-> ->]. unfold one_event.
  destruct (fits (i_conf i) r); [|auto]. destruct set; [|destruct (find _ _); auto].
  cbv zeta. unfold add_lan. rewrite (C i (or_introl eq_refl)). cbn. destruct (find _ _); auto.
Qed.
(** without aging of metrics no freed object is used, whatever is removed; missing: aging *)
Theorem C160_no_aging_partial e os : no_aging os -> exists s, run e init os = Ok s.
Proof.
  assert (X : forall os s, s_timers s = [] -> calm_imps (s_imps s) -> no_aging os -> exists s', run e s os = Ok s').
  { induction os0 as [|o t IH]; intros s T C G; [exists s; reflexivity|]. cbn.
    assert (G' : no_aging t) by (intros n c H; apply (G n); right; exact H).
    destruct o as [r b|x|n p]; cbn.
    - unfold rt_event. destruct (eligible e r); [|apply IH; auto]. destruct (quiet_event e r b (s_imps s) s C) as [E1 E2].
      apply IH; rewrite ?E1, ?E2; auto.
    - rewrite T. apply IH; auto.
    - apply IH; auto; unfold cfg_changed; destruct p as [c|]; cbn; auto.
      + assert (Ac : c_aging c = 0) by (apply (G n); left; reflexivity). destruct (existsb _ _).
        * intros i H. apply in_map_iff in H as [j [<- H]]. destruct (i_name j =? n); [exact Ac|apply C; exact H].
        * intros i H. apply put_in in H as [->|H]; [exact Ac|apply C; exact H].
      + intros i H. apply filter_In in H as [H _]. apply C. exact H. }
  intro G. apply X; cbn; auto. intros i [].
Qed.

Definition safe (s : st) : Prop :=
  (forall t, In t (s_timers s) -> exists l, In l (s_lans s) /\ l_id l = t) /\
  (forall l, In l (s_lans s) -> exists i, In i (s_imps s) /\ i_id i = l_imp l).
Lemma safe_event e r : forall l s, (forall i, In i l -> In i (s_imps s)) -> safe s -> safe (fold_left (one_event e r true) l s).
Proof.
  induction l as [|i l IH]; intros s Sub Sf; cbn [fold_left]; [exact Sf|].
  assert (X : s_imps (one_event e r true s i) = s_imps s /\ safe (one_event e r true s i)).
  { unfold one_event. destruct (fits (i_conf i) r); [|auto]. cbv zeta. set (m := if _ >? 255 then 255 else _). unfold add_lan.
    pose proof (find_lan s (i_id i) (r_key r)) as F. destruct Sf as [S1 S2]. destruct (find _ _) as [l0|].
    - destruct (c_aging (i_conf i) =? 0); [split; [reflexivity|split; auto]|]. split; [reflexivity|]. split; cbn; [|exact S2].
      intros t [<-|H]; [exists l0; split; [apply F|reflexivity]|]. apply filter_In in H as [H _]. auto.
    - assert (Y : forall x t, (In t x -> In t (s_timers s) \/ t = s_next s) -> In t x ->
        exists l1, In l1 ({| l_id := s_next s; l_imp := i_id i; l_key := r_key r |} :: s_lans s) /\ l_id l1 = t).
      { intros x t Q H. destruct (Q H) as [H1| ->]; [|eexists; split; [left; reflexivity|reflexivity]].
        destruct (S1 t H1) as [l1 [H2 H3]]. exists l1. split; [right; exact H2|exact H3]. }
      assert (Z0 : forall l1, In l1 ({| l_id := s_next s; l_imp := i_id i; l_key := r_key r |} :: s_lans s) ->
        exists i0, In i0 (s_imps s) /\ i_id i0 = l_imp l1).
      { intros l1 [<-|H]; [exists i; split; [apply Sub; left; reflexivity|reflexivity]|auto]. }
      destruct (c_aging (i_conf i) =? 0); (split; [reflexivity|]); split; cbn -[In]; try exact Z0; intros t H;
        refine (Y _ t _ H); [auto|]. intros [<-|G]; [auto|]. apply filter_In in G as [G _]. auto. }
  destruct X as [X1 X2]. apply IH; [|exact X2]. intros j Hj. rewrite X1. apply Sub. right. exact Hj.
Qed.
(** while neither routes nor sections are removed no freed object is used either; missing: removals together with aging *)
Theorem C160_no_removal_partial e os : no_removal os -> exists s, run e init os = Ok s.
Proof.
  assert (X : forall os s, safe s -> no_removal os -> exists s', run e s os = Ok s').
  { induction os0 as [|o t IH]; intros s Sf G; [exists s; reflexivity|]. cbn.
    assert (G' : no_removal t) by (intros x H; apply G; right; exact H). pose proof (G o (or_introl eq_refl)) as Go.
    destruct o as [r [|]|x|n [c|]]; cbn; try contradiction.
    - apply IH; auto. unfold rt_event. destruct (eligible e r); [|exact Sf]. apply safe_event; auto.
    - destruct (existsb (Z.eqb x) (s_timers s)) eqn:Q; [|apply IH; auto]. apply existsb_exists in Q as [y [Q1 Q2]].
      assert (x = y) by lia. subst y. destruct Sf as [S1 S2]. destruct (S1 x Q1) as [l [L1 L2]]. unfold aging.
      destruct (find (fun l => l_id l =? x) (s_lans s)) as [l'|] eqn:F.
      2:{ pose proof (find_none _ _ F l L1) as H. cbn in H. lia. }
      apply find_some in F as [F _]. destruct (S2 l' F) as [i [I1 I2]].
      destruct (find (fun i => i_id i =? l_imp l') (s_imps s)) as [i'|] eqn:F'.
      2:{ pose proof (find_none _ _ F' i I1) as H. cbn in H. lia. }
      cbv zeta. apply IH; [|exact G']. split; cbn; [|exact S2]. intros t0 H. apply S1. destruct (existsb _ _) in H; [|exact H].
      apply filter_In in H as [H _]. exact H.
    - apply IH; auto. destruct Sf as [S1 S2]. unfold cfg_changed. split; cbn; [exact S1|]. intros l H. destruct (S2 l H) as [i [I1 I2]].
      destruct (existsb _ _).
      + exists (if i_name i =? n then {| i_id := i_id i; i_name := n; i_conf := c |} else i). split.
        * apply in_map_iff. exists i. auto.
        * destruct (i_name i =? n); exact I2.
      + exists i. split; [apply put_in; auto|exact I2]. }
  intro G. apply X; [|exact G]. split; intros x [].
Qed.
(** a route with an aging metric is removed: the timer of the freed object fires *)
Theorem C160_removed_route_refuted : exists e c r t, 0 < c_aging c /\ run e init [Section 1 (Some c); Event r true; Event r false; Timer t] = Bad.
Proof. exists ex_env, (cf (-1) 0 3 1000), (rt 5 1 2), 1. split; reflexivity. Qed.
(** the section is removed: the timer uses the freed section *)
Theorem C160_removed_section_refuted : exists e c r t, 0 < c_aging c /\ run e init [Section 1 (Some c); Event r true; Section 1 None; Timer t] = Bad.
Proof. exists ex_env, (cf (-1) 0 3 1000), (rt 5 1 2), 1. split; reflexivity. Qed.
Definition ex_aging : list op := [Section 1 (Some (cf (-1) 0 3 1000)); Event (rt 5 1 2) true; Timer 1; Event (rt 5 1 2) true; Timer 1].
Example C160_ex : no_removal ex_aging /\ exists s, run ex_env init ex_aging = Ok s /\ s_ann s = [(1, 5, 12, 1); (0, 5, 12, 1)] /\ s_timers s = [1].
Proof.
  split; [intros o H; repeat (destruct H as [<-|H]; [exact Logic.I|]); destruct H|].
  eexists. split; [vm_compute; reflexivity|]. split; reflexivity.
Qed.

(** ** C161: aging *)
Lemma older_min m : older m = Z.min METRIC_MAX (2 * m).
Proof. unfold older. change (METRIC_MAX / 2) with 8388480. unfold METRIC_MAX. destruct (m >=? 8388480) eqn:E; lia. Qed.
Lemma min_pow m n : 0 <= m -> Z.min METRIC_MAX (Z.min METRIC_MAX (2 * m) * 2 ^ Z.of_nat n) = Z.min METRIC_MAX (m * 2 ^ Z.of_nat (S n)).
Proof.
  intro M. rewrite Nat2Z.inj_succ, Z.pow_succ_r by lia. assert (P : 1 <= 2 ^ Z.of_nat n) by (apply (Z.pow_le_mono_r 2 0); lia).
  set (p := 2 ^ Z.of_nat n) in *. unfold METRIC_MAX. nia.
Qed.
Definition metric_is (m : Z) (x : Z * Z * Z * Z) : Prop := match x with (_, _, m', _) => m' = m end.
(** when the network has the same metric in all domains of its section, [n] intervals multiply it by 2^n, up to the maximum, and change no
    other network; missing: different metrics in the domains *)
Theorem C161_doubles_partial e t l i n : forall s m,
  (forall x, In x (s_lans s) -> l_id x = t -> x = l) -> In l (s_lans s) -> l_id l = t ->
  (forall x, In x (s_imps s) -> i_id x = l_imp l -> x = i) -> In i (s_imps s) -> i_id i = l_imp l ->
  In t (s_timers s) \/ m = METRIC_MAX -> 0 <= m <= METRIC_MAX -> (forall x, In x (s_ann s) -> of_section e (i_conf i) (l_key l) x -> metric_is m x) ->
  exists s', run e s (repeat (Timer t) n) = Ok s' /\
    (forall d k m' x, of_section e (i_conf i) (l_key l) (d, k, m', x) -> In (d, k, m', x) (s_ann s) ->
       In (d, k, Z.min METRIC_MAX (m * 2 ^ Z.of_nat n), x) (s_ann s')) /\
    (forall y, ~ of_section e (i_conf i) (l_key l) y -> In y (s_ann s) -> In y (s_ann s')).
Proof.
  induction n as [|n IH]; intros s m L1 L2 L3 I1 I2 I3 R M A.
  { exists s. split; [reflexivity|]. split; [|auto]. intros d k m' x H1 H2. pose proof (A _ H2 H1) as E. cbn in E. subst m'.
    change (2 ^ Z.of_nat 0) with 1. replace (Z.min METRIC_MAX (m * 1)) with m by lia. exact H2. }
  cbn [repeat run step]. destruct (existsb (Z.eqb t) (s_timers s)) eqn:Q.
  - unfold aging. destruct (find (fun x => l_id x =? t) (s_lans s)) as [l'|] eqn:F.
    2:{ pose proof (find_none _ _ F l L2) as H. cbn in H. lia. }
    apply find_some in F as [F1 F2]. assert (l' = l) by (apply L1; [exact F1|lia]). subst l'.
    destruct (find (fun x => i_id x =? l_imp l) (s_imps s)) as [i'|] eqn:F.
    2:{ pose proof (find_none _ _ F i I2) as H. cbn in H. lia. }
    apply find_some in F as [F3 F4]. assert (i' = i) by (apply I1; [exact F3|lia]). subst i'. cbv zeta.
    set (hit := fun x : Z * Z * Z * Z => match x with (d, k, _, _) => (k =? l_key l) && covers (i_conf i) d && existsb (Z.eqb d) (e_doms e) end).
    assert (Hh : forall x, hit x = true <-> of_section e (i_conf i) (l_key l) x).
    { intros [[[d k] m'] x]. unfold hit, of_section, covers. rewrite !Bool.andb_true_iff, any_iff, existsb_exists. split.
      - intros [[H1 H2] [y [H3 H4]]]. replace d with y by lia. split; [lia|]. split; [exact H3|]. replace y with d by lia. exact H2.
      - intros [H1 [H2 H3]]. split; [split; [lia|exact H3]|]. exists d. split; [exact H2|lia]. }
    set (upd := fun x : Z * Z * Z * Z => if hit x then match x with (d, k, m, n) => (d, k, older m, n) end else x).
    match goal with |- exists s', run e ?s1 _ = _ /\ _ => set (s1' := s1) end.
    destruct (IH s1' (Z.min METRIC_MAX (2 * m))) as [s' [E1 [E2 E3]]]; auto.
    + cbn. match goal with |- In _ (if ?b then _ else _) \/ _ => destruct b eqn:Fu end.
      * right. apply existsb_exists in Fu as [[[[d k] m'] x] [H1 H2]]. apply andb_prop in H2 as [H2 H3].
        apply (proj1 (Hh (d, k, m', x))) in H2. pose proof (A _ H1 H2) as E. cbn in E. subst m'. change (METRIC_MAX / 2) with 8388480 in H3. unfold METRIC_MAX. lia.
      * left. apply existsb_exists in Q as [y [Q1 Q2]]. replace t with y by lia. exact Q1.
    + unfold METRIC_MAX in *. lia.
    + intros x H1 H2. change (s_ann s1') with (map upd (s_ann s)) in H1. apply in_map_iff in H1 as [[[[d k] m'] y] [H3 H4]]. unfold upd in H3. destruct (hit (d, k, m', y)) eqn:Hi.
      * subst x. apply Hh in Hi. pose proof (A _ H4 Hi) as E. cbn in E. subst m'. cbn. apply older_min.
      * subst x. apply Hh in H2. congruence.
    + exists s'. split; [exact E1|]. split.
      * intros d k m' x H1 H2. rewrite <- min_pow by lia. apply (E2 d k (older m') x).
        -- exact H1.
        -- change (s_ann s1') with (map upd (s_ann s)). apply in_map_iff. exists (d, k, m', x). split; [|exact H2]. apply Hh in H1. unfold upd. rewrite H1. reflexivity.
      * intros y H1 H2. apply E3; [exact H1|]. change (s_ann s1') with (map upd (s_ann s)). apply in_map_iff. exists y. split; [|exact H2]. unfold upd. destruct (hit y) eqn:Hi; [|reflexivity].
        apply Hh in Hi. contradiction.
  - assert (Mm : m = METRIC_MAX).
    { destruct R as [R|R]; [|exact R]. rewrite <- Bool.not_true_iff_false in Q. exfalso. apply Q. apply existsb_exists. exists t. split; [exact R|lia]. }
    destruct (IH s m L1 L2 L3 I1 I2 I3 R M A) as [s' [E1 [E2 E3]]]. exists s'. split; [exact E1|]. split; [|exact E3].
    intros d k m' x H1 H2. pose proof (E2 d k m' x H1 H2) as E. rewrite <- min_pow by lia. rewrite Mm in *.
    replace (Z.min METRIC_MAX (2 * METRIC_MAX)) with METRIC_MAX by (unfold METRIC_MAX; lia). exact E.
Qed.
Definition ex_aged : list op := [Section 1 (Some (cf (-1) 0 3 1000)); Event (rt 5 1 2) true].
Example C161_ex : exists s l i, run ex_env init ex_aged = Ok s /\ In l (s_lans s) /\ l_id l = 1 /\ In i (s_imps s) /\ i_id i = l_imp l /\
  In 1 (s_timers s) /\ (forall x, In x (s_lans s) -> l_id x = 1 -> x = l) /\ (forall x, In x (s_imps s) -> i_id x = l_imp l -> x = i) /\
  (forall x, In x (s_ann s) -> of_section ex_env (i_conf i) (l_key l) x -> metric_is 3 x) /\ In (1, 5, 3, 1) (s_ann s) /\
  of_section ex_env (i_conf i) (l_key l) (1, 5, 3, 1) /\
  exists s', run ex_env s (repeat (Timer 1) 24) = Ok s' /\ s_ann s' = [(1, 5, METRIC_MAX, 1); (0, 5, METRIC_MAX, 1)] /\ s_timers s' = [].
Proof.
  eexists. exists {| l_id := 1; l_imp := 0; l_key := 5 |}, {| i_id := 0; i_name := 1; i_conf := cf (-1) 0 3 1000 |}.
  split; [vm_compute; reflexivity|]. split; [left; reflexivity|]. split; [reflexivity|]. split; [left; reflexivity|]. split; [reflexivity|].
  split; [left; reflexivity|]. split; [intros x [<-|[]] _; reflexivity|]. split; [intros x [<-|[]] _; reflexivity|].
  split; [intros x [<-|[<-|[]]] _; reflexivity|]. split; [left; reflexivity|].
  split; [cbn; split; [reflexivity|]; split; [tauto|left; reflexivity]|].
  eexists. split; [vm_compute; reflexivity|]. split; reflexivity.
Qed.
(** another section sets the highest metric for domain 0: the timer stops, and the metric of domain 1 grows no more *)
Theorem C161_two_sections_refuted : exists e c c' r t s, let os := [Section 1 (Some c); Section 2 (Some c'); Event r true] in
  c_domain c = -1 /\ c_metric c = 1 /\ 0 < c_aging c /\ c_domain c' = 0 /\ sections_first (rev os) /\ alone (rev os) /\
  (forall n, exists s', run e init (os ++ repeat (Timer t) (S n)) = Ok s' /\ s_ann s' = s_ann s /\ s_timers s' = []) /\
  run e init (os ++ [Timer t]) = Ok s /\ In (1, r_key r, 2, 1) (s_ann s).
Proof.
  exists ex_env, (cf (-1) 0 1 1000), (cf 0 0 METRIC_MAX 0), (rt 5 1 2), 2. eexists. cbn zeta.
  split; [reflexivity|]. split; [reflexivity|]. split; [reflexivity|]. split; [reflexivity|].
  split; [cbn; repeat split; try discriminate; intros o H; repeat destruct H as [<-|H]; cbn; tauto|].
  split; [cbn; repeat split; intros x []|]. split; [|split; [vm_compute; reflexivity|cbn; tauto]].
  intro n. rewrite run_app.
  match goal with |- context [run ex_env init ?x] => let y := eval vm_compute in (run ex_env init x) in replace (run ex_env init x) with y by (vm_compute; reflexivity) end.
  cbn [repeat run]. match goal with |- context [step ex_env ?s0 (Timer 2)] => let y := eval vm_compute in (step ex_env s0 (Timer 2)) in
    replace (step ex_env s0 (Timer 2)) with y by (vm_compute; reflexivity) end. cbv beta iota.
  match goal with |- exists s', run ex_env ?s1 _ = _ /\ _ => exists s1 end. split; [|split; reflexivity].
  induction n as [|n IH]; [reflexivity|]. exact IH.
Qed.

Print Assumptions C159_exact_partial.
Print Assumptions C159_second_route_refuted.
Print Assumptions C159_replaced_route_refuted.
Print Assumptions C159_removed_section_refuted.
Print Assumptions C159_changed_section_refuted.
Print Assumptions C160_no_aging_partial.
Print Assumptions C160_no_removal_partial.
Print Assumptions C160_removed_route_refuted.
Print Assumptions C160_removed_section_refuted.
Print Assumptions C161_doubles_partial.
Print Assumptions C161_two_sections_refuted.
Print Assumptions C159_values_partial.
