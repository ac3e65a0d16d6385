(** C152: users that are careful never make oonf_rfc5444.c touch what was freed. *)
From Verif Require Import Base BufLemmas R5Model R5Spec R5Props.
From Coq Require Import Permutation.

(** ** Handles *)
Lemma h_eqb_eq a b : h_eqb a b = true -> a = b.
Proof.
  destruct a as [i [l|]|], b as [j [m|]|]; simpl; intro H; try discriminate; try lia; try (f_equal; try f_equal; lia).
Qed.
Lemma h_eqb_refl a : h_eqb a a = true.
Proof. destruct a as [i [l|]|]; simpl; lia. Qed.
Lemma drop_perm g hs : In g hs -> Permutation hs (g :: drop g hs).
Proof.
  induction hs as [|h r IH]; [intros []|]. simpl. destruct (h_eqb h g) eqn:E; [apply h_eqb_eq in E; subst; reflexivity|].
  intros [->|I]; [rewrite h_eqb_refl in E; discriminate|]. rewrite perm_swap. constructor. auto.
Qed.
Definition tid (h : handle) : list Z := match h with HT t _ _ => [t] | _ => [] end.
Definition cnt (i : Z) (hs : list handle) : Z := zlen (filter (fun h => h_if h =? i) hs).
Lemma cnt_cons i h hs : cnt i (h :: hs) = (if h_if h =? i then 1 else 0) + cnt i hs.
Proof. unfold cnt. simpl. destruct (h_if h =? i); [rewrite zlen_cons|]; lia. Qed.
Lemma cnt_pos i h hs : In h hs -> h_if h = i -> 1 <= cnt i hs.
Proof.
  intros I E. induction hs as [|g r IH]; [destruct I|]. rewrite cnt_cons. pose proof (zlen_nonneg (filter (fun h => h_if h =? i) r)) as N.
  change (0 <= cnt i r) in N. destruct I as [->|I]; [rewrite E, Z.eqb_refl; lia|]. specialize (IH I). destruct (h_if g =? i); lia.
Qed.
Lemma cnt_zero i hs : (forall h, In h hs -> h_if h <> i) -> cnt i hs = 0.
Proof.
  induction hs as [|g r IH]; intro H; [reflexivity|]. rewrite cnt_cons, IH; [|intros h I; apply H; right; exact I].
  specialize (H g (or_introl eq_refl)). destruct (h_if g =? i) eqn:E; lia.
Qed.
Lemma cnt_perm i a b : Permutation a b -> cnt i a = cnt i b.
Proof. induction 1; rewrite ?cnt_cons; lia. Qed.

(** ** The invariant *)
Definition key (y : tgt) := (t_id y, (t_if y, (t_dst y, (t_kind y, t_ref y)))).
Definition kx (x : itf) := (i_id x, (i_ref x, i_lis x)).
Definition ids (s : st) : list Z := map i_id (s_ifs s).
Record inv (s : st) (hs : list handle) : Prop := {
  v_ids : NoDup (ids s); v_lt : forall i, In i (ids s) -> i < s_next s;
  v_t : tids_ok s; v_tif : forall y, In y (s_ts s) -> In (t_if y) (ids s);
  v_ref : forall x, In x (s_ifs s) -> i_ref x = cnt (i_id x) hs;
  v_hif : forall h, In h hs -> In (h_if h) (ids s);
  v_ht : forall t i d, In (HT t i d) hs -> exists y, In y (s_ts s) /\ key y = (t, (i, (d, (Uni, 1))));
  v_th : forall y, In y (s_ts s) -> t_kind y = Uni -> In (HT (t_id y) (t_if y) (t_dst y)) hs;
  v_tid : NoDup (flat_map tid hs);
  v_lis : forall x l, In x (s_ifs s) -> In l (i_lis x) -> In (HI (i_id x) (Some l)) hs;
  v_al : forall i l, In (HI i (Some l)) hs -> In l (s_lis s);
  v_ll : NoDup (flat_map lis hs) }.
Lemma inv_perm s a b : Permutation a b -> inv s a -> inv s b.
Proof.
  intros P V. assert (I : forall h, In h a <-> In h b) by (intro h; split; apply Permutation_in; [|symmetry]; exact P).
  destruct V. split; auto.
  - intros x J. rewrite <- (cnt_perm _ _ _ P). auto.
  - intros h J. apply v_hif0, I, J.
  - intros t i d J. apply v_ht0, I, J.
  - intros y J K. apply I. auto.
  - apply (Permutation_NoDup (Permutation_flat_map tid P)). assumption.
  - intros x l J K. apply I. auto.
  - intros i l J. apply (v_al0 i), I, J.
  - apply (Permutation_NoDup (Permutation_flat_map lis P)). assumption.
Qed.
Record stays (s s' : st) : Prop := {
  y_ifs : map kx (s_ifs s') = map kx (s_ifs s); y_lis : s_lis s' = s_lis s; y_next : s_next s <= s_next s';
  y_ids : tids_ok s -> tids_ok s';
  y_back : forall y', In y' (s_ts s') -> (exists y, In y (s_ts s) /\ key y' = key y) \/ (t_kind y' <> Uni /\ In (t_if y') (ids s));
  y_forth : forall y, In y (s_ts s) -> t_kind y = Uni -> exists y', In y' (s_ts s') /\ key y' = key y }.
Lemma ids_kx s s' : map kx (s_ifs s') = map kx (s_ifs s) -> ids s' = ids s.
Proof. intro H. unfold ids. change i_id with (fun x => fst (kx x)). rewrite <- !(map_map kx fst), H. reflexivity. Qed.
Lemma stays_refl s : stays s s.
Proof. split; auto; [lia| |]; eauto. Qed.
Lemma stays_trans a b c : stays a b -> stays b c -> stays a c.
Proof.
  intros [A1 A2 A3 A4 A5 A6] [B1 B2 B3 B4 B5 B6]. split; auto; try congruence; [lia| |].
  - intros y H. destruct (B5 y H) as [[z [I E]]|[N I]].
    + destruct (A5 z I) as [[w [J F]]|[N J]]; [left; exists w; split; congruence|]. right. unfold key in E. injection E as E1 E2 E3 E4 E5.
      rewrite E4, E2. auto.
    + right. rewrite <- (ids_kx _ _ A1). auto.
  - intros y I K. destruct (A6 y I K) as [z [J E]]. destruct (B6 z J) as [w [L F]]; [unfold key in E; congruence|]. exists w. split; congruence.
Qed.
Lemma inv_stays s s' hs : stays s s' -> inv s hs -> inv s' hs.
Proof.
  intros [A1 A2 A3 A4 A5 A6] V. pose proof (ids_kx _ _ A1) as Ei. destruct V.
  assert (X : forall x', In x' (s_ifs s') -> exists x, In x (s_ifs s) /\ kx x' = kx x).
  { intros x' I. apply (in_map kx) in I. rewrite A1 in I. apply in_map_iff in I as [x [E I]]. exists x. auto. }
  split; auto; rewrite ?Ei, ?A2; auto.
  - intros i I. specialize (v_lt0 i I). lia.
  - intros y I. destruct (A5 y I) as [[z [J E]]|[_ J]]; [|exact J]. unfold key in E. injection E as E1 E2 E3 E4 E5. rewrite E2. auto.
  - intros x' I. destruct (X x' I) as [x [J E]]. unfold kx in E. injection E as E1 E2 E3. rewrite E1, E2. auto.
  - intros t i d I. destruct (v_ht0 t i d I) as [y [J E]]. destruct (A6 y J) as [z [K F]]; [unfold key in E; congruence|]. exists z. split; congruence.
  - intros y I K. destruct (A5 y I) as [[z [J E]]|[N _]]; [|destruct (N K)]. unfold key in E. injection E as E1 E2 E3 E4 E5.
    rewrite E1, E2, E3. apply v_th0; congruence.
  - intros x' l I L. destruct (X x' I) as [x [J E]]. unfold kx in E. injection E as E1 E2 E3. rewrite E1. rewrite E3 in L. auto.
Qed.
Lemma get_if_ok s i : In i (ids s) -> exists x, get_if s i = Ok x.
Proof.
  intro H. unfold ids in H. apply in_map_iff in H as [x [E I]]. unfold get_if, find_if. destruct (find _ _) eqn:F; [eauto|].
  apply (find_none _ _ F) in I. lia.
Qed.
Lemma if_unique s hs x z : inv s hs -> In x (s_ifs s) -> In z (s_ifs s) -> i_id x = i_id z -> x = z.
Proof.
  intros [N _ _ _ _ _ _ _ _ _ _ _]. unfold ids in N. induction (s_ifs s) as [|w l IH]; [intros []|]. inversion N; subst. intros [<-|A] [<-|B] E; auto.
  - exfalso. apply H1. rewrite E. apply in_map. exact B.
  - exfalso. apply H1. rewrite <- E. apply in_map. exact A.
Qed.
(** *** changes that keep the references *)
Lemma stays_upd_if s i f : (forall x, kx (f x) = kx x) -> stays s (upd_if i f s).
Proof.
  intro F. split; auto; [|cbn; lia| |]; eauto. cbn. rewrite map_map. apply map_ext. intro x. destruct (i_id x =? i); auto.
Qed.
Lemma stays_upd_t s t f : (forall y, key (f y) = key y) -> stays s (upd_t t f s).
Proof.
  intro F. split; auto; [cbn; lia| | |].
  - apply ids_upd. intro y. specialize (F y). unfold key in F. congruence.
  - intros y H. cbn in H. apply in_map_iff in H as [z [<- H]]. left. exists z. split; [exact H|]. destruct (t_id z =? t); auto.
  - intros y H _. exists (if t_id y =? t then f y else y). split; [cbn; apply in_map_iff; eauto|]. destruct (t_id y =? t); auto.
Qed.
Lemma stays_renew s i k a : k <> Uni -> In i (ids s) -> stays s (renew s i k a).
Proof.
  intros K I. pose proof (k_ids _ _ (keeps_renew s i k a)) as T. split; auto.
  - unfold renew. destruct a; reflexivity.
  - unfold renew. destruct a; reflexivity.
  - unfold renew. destruct a; cbn; lia.
  - intros y H. unfold renew in H. destruct a as [a|]; cbn in H.
    + apply in_app_iff in H as [H|[<-|[]]]; [|right; split; [exact K|exact I]]. apply filter_In in H as [H _]. left. eauto.
    + apply filter_In in H as [H _]. left. eauto.
  - intros y H E. exists y. split; [|reflexivity].
    assert (J : In y (filter (fun t => negb ((t_if t =? i) && kind_eqb (t_kind t) k)) (s_ts s))).
    { apply filter_In. split; [exact H|]. rewrite E. destruct k; [destruct (K eq_refl)| |]; simpl; rewrite andb_false_r; reflexivity. }
    unfold renew. destruct a; cbn; [apply in_app_iff; left|]; exact J.
Qed.
Lemma call_ok alive ls : (forall l, In l ls -> In l alive) -> call alive ls = Ok tt.
Proof.
  induction ls as [|l r IH]; intro H; [reflexivity|]. simpl.
  assert (E : existsb (Z.eqb l) alive = true) by (apply existsb_exists; exists l; split; [apply H; left; reflexivity|lia]).
  rewrite E. apply IH. intros m M. apply H. right. exact M.
Qed.
Lemma notify_ok s hs i : inv s hs -> In i (ids s) -> notify s i = Ok s.
Proof.
  intros V I. unfold notify. destruct (get_if_ok s i I) as [x G]. rewrite G. cbn [rbind]. apply get_if_in in G as [G _].
  rewrite call_ok; [reflexivity|]. intros l L. apply (v_al _ _ V (i_id x)). apply (v_lis _ _ V); assumption.
Qed.
Definition fine (s : st) (r : res st) : Prop := exists s', r = Ok s' /\ stays s s'.
Lemma fine_renew2 s0 s i a b : stays s0 s -> In i (ids s0) -> stays s0 (renew (renew s i M4 a) i M6 b).
Proof.
  intros T I. assert (I1 : In i (ids s)) by (rewrite (ids_kx _ _ (y_ifs _ _ T)); exact I).
  eapply stays_trans; [exact T|]. eapply stays_trans; [apply (stays_renew s i M4 a); [discriminate|exact I1]|]. apply stays_renew; [discriminate|].
  rewrite (ids_kx _ _ (y_ifs _ _ (stays_renew s i M4 a ltac:(discriminate) I1))). exact I1.
Qed.
Lemma fine_reapply s hs i : inv s hs -> In i (ids s) -> fine s (reapply s i).
Proof.
  intros V I. unfold reapply. destruct (get_if_ok s i I) as [x G]. rewrite G. cbn [rbind]. set (s1 := upd_if i (settle s) s).
  assert (T : stays s s1) by (apply stays_upd_if; reflexivity). destruct (s_port s1 =? 0); [exists s1; auto|].
  pose proof (inv_stays _ _ _ T V) as V1. assert (I1 : In i (ids s1)) by (rewrite (ids_kx _ _ (y_ifs _ _ T)); exact I).
  rewrite (notify_ok _ _ _ V1 I1). cbn [rbind]. destruct (get_if_ok s1 i I1) as [z Gz]. rewrite Gz. cbn [rbind].
  eexists. split; [reflexivity|]. apply fine_renew2; assumption.
Qed.
Lemma fine_changed s hs i ch : inv s hs -> In i (ids s) -> fine s (changed s i ch).
Proof.
  intros V I. unfold changed. assert (F : fine s (if ch then reapply s i else Ok s)).
  { destruct ch; [apply (fine_reapply _ hs); assumption|]. exists s. split; [reflexivity|apply stays_refl]. }
  destruct F as [s1 [E T]]. rewrite E. cbn [rbind]. exists s1. split; [|exact T].
  apply (notify_ok _ hs); [apply (inv_stays _ _ _ T V)|]. rewrite (ids_kx _ _ (y_ifs _ _ T)). exact I.
Qed.
Lemma fine_reconfigure s hs i c ch : inv s hs -> In i (ids s) -> fine s (reconfigure s i c ch).
Proof.
  intros V I. unfold reconfigure. destruct (get_if_ok s i I) as [x G]. rewrite G. cbn [rbind].
  set (s0 := match c with Some c => upd_if i (take c) s | None => s end).
  assert (T0 : stays s s0) by (unfold s0; destruct c; [apply stays_upd_if; reflexivity|apply stays_refl]).
  set (s1 := upd_if i (settle s0) s0). assert (T : stays s s1) by (eapply stays_trans; [exact T0|apply stays_upd_if; reflexivity]).
  destruct (s_port s1 =? 0); [exists s1; auto|].
  pose proof (inv_stays _ _ _ T V) as V1. assert (I1 : In i (ids s1)) by (rewrite (ids_kx _ _ (y_ifs _ _ T)); exact I).
  destruct (fine_changed s1 hs i ch V1 I1) as [s2 [E T2]]. rewrite E. cbn [rbind].
  assert (I2 : In i (ids s2)) by (rewrite (ids_kx _ _ (y_ifs _ _ T2)); exact I1).
  destruct (get_if_ok s2 i I2) as [z Gz]. rewrite Gz. cbn [rbind]. eexists. split; [reflexivity|].
  apply fine_renew2; [|exact I]. eapply stays_trans; eassumption.
Qed.
Lemma fine_reconf_all ch is : forall s hs, inv s hs -> (forall i, In i is -> In i (ids s)) -> fine s (reconf_all s is ch).
Proof.
  induction is as [|i r IH]; intros s hs V A; [exists s; split; [reflexivity|apply stays_refl]|]. simpl.
  destruct (fine_reconfigure s hs i None ch V (A i (or_introl eq_refl))) as [s1 [E T]]. rewrite E. cbn [rbind].
  destruct (IH s1 hs) as [s2 [E2 T2]]; [apply (inv_stays _ _ _ T V)| |exists s2; split; [exact E2|eapply stays_trans; eassumption]].
  intros j J. rewrite (ids_kx _ _ (y_ifs _ _ T)). apply A. right. exact J.
Qed.
Lemma stays_same s s' : s_ifs s' = s_ifs s -> s_ts s' = s_ts s -> s_lis s' = s_lis s -> s_next s' = s_next s -> stays s s'.
Proof. intros A B C D. split; unfold tids_ok; rewrite ?A, ?B, ?C, ?D; auto; [lia| |]; eauto. Qed.
Lemma fine_protocol s hs p ch : inv s hs -> fine s (reconfigure_protocol s p ch).
Proof.
  intro V. unfold reconfigure_protocol. destruct (p =? s_port s); [exists s; split; [reflexivity|apply stays_refl]|].
  assert (T : stays s (set_port s p)) by (apply stays_same; reflexivity).
  destruct (p =? 0); [exists (set_port s p); auto|].
  destruct (fine_reconf_all ch (map i_id (s_ifs s)) (set_port s p) hs) as [s2 [E2 T2]]; [apply (inv_stays _ _ _ T V)|auto|].
  exists s2. split; [exact E2|eapply stays_trans; eassumption].
Qed.

(** *** references that come and go *)
Lemma nodup_cons_app (a : Z) l : NoDup l -> ~ In a l -> NoDup (l ++ [a]).
Proof. intros N I. apply (NoDup_Add (Add_app a l [])). rewrite app_nil_r. auto. Qed.
Lemma inv_lis s hs l : inv s hs -> inv (set_lis s (l :: s_lis s)) hs.
Proof. intros []. split; auto. intros i m H. right. apply (v_al0 i m H). Qed.
Lemma inv_new s hs n q : inv s hs -> inv (set_seq (set_next (set_ifs s (s_ifs s ++ [new_itf s n])) (s_next s + 1)) q) hs.
Proof.
  intros []. assert (E : ids (set_seq (set_next (set_ifs s (s_ifs s ++ [new_itf s n])) (s_next s + 1)) q) = ids s ++ [s_next s])
    by (unfold ids; cbn; apply map_app).
  split; auto; rewrite ?E.
  - apply nodup_cons_app; [assumption|]. intro H. specialize (v_lt0 _ H). lia.
  - intros i H. cbn. apply in_app_iff in H as [H|[<-|[]]]; [specialize (v_lt0 _ H); lia|lia].
  - destruct v_t0 as [N F]. split; [exact N|]. eapply Forall_impl; [|exact F]. intros y H. cbn in *. lia.
  - intros y H. apply in_app_iff. left. auto.
  - intros x H. cbn in H. apply in_app_iff in H as [H|[<-|[]]]; [auto|]. cbn. symmetry. apply cnt_zero. intros h I X.
    specialize (v_lt0 _ (v_hif0 h I)). lia.
  - intros h H. apply in_app_iff. left. auto.
  - intros x l H L. cbn in H. apply in_app_iff in H as [H|[<-|[]]]; [auto|destruct L].
Qed.
Lemma ids_upd_if s i f : (forall x, i_id (f x) = i_id x) -> ids (upd_if i f s) = ids s.
Proof. intro F. unfold ids. cbn. rewrite map_map. apply map_ext. intro x. destruct (i_id x =? i); auto. Qed.
Lemma inv_hook s hs i l : inv s hs -> In i (ids s) -> match l with Some l => ~ In l (flat_map lis hs) /\ In l (s_lis s) | None => True end ->
  inv (upd_if i (hook l) s) (HI i l :: hs).
Proof.
  intros V I L. pose proof (ids_upd_if s i (hook l) (fun x => eq_refl)) as E. destruct V. split; auto; rewrite ?E; auto.
  - intros x H. cbn in H. apply in_map_iff in H as [z [<- H]]. specialize (v_ref0 z H).
    destruct (i_id z =? i) eqn:D; rewrite cnt_cons; cbn; rewrite ?Z.eqb_refl; [rewrite Z.eqb_sym, D|rewrite Z.eqb_sym, D]; lia.
  - intros h [<-|H]; auto.
  - intros t j d [H|H]; [discriminate H|auto].
  - intros y H K. right. auto.
  - intros x m H M. cbn in H. apply in_map_iff in H as [z [<- H]]. destruct (i_id z =? i) eqn:D; [|right; auto]. cbn in *.
    destruct l as [l|]; [|right; auto]. apply in_app_iff in M as [M|[<-|[]]]; [right; auto|]. left. f_equal. lia.
  - intros j m [[= <- ->]|H]; [apply L|apply (v_al0 j m H)].
  - simpl. destruct l as [l|]; simpl; [constructor; [apply L|]|]; assumption.
Qed.
Lemma inv_add_interface s hs l n : inv s hs -> match l with Some l => ~ In l (flat_map lis hs) /\ In l (s_lis s) | None => True end ->
  inv (fst (add_interface s l n)) (HI (snd (add_interface s l n)) l :: hs).
Proof.
  intros V L. unfold add_interface. destruct (find _ _) as [x|] eqn:F; cbn [fst snd].
  - apply inv_hook; [exact V| |exact L]. apply find_some in F as [F _]. unfold ids. apply in_map. exact F.
  - apply inv_hook; [apply inv_new; exact V| |exact L]. unfold ids. cbn. rewrite map_app. apply in_app_iff. right. left. reflexivity.
Qed.
(** [s] without one reference to the interface [i] *)
Lemma inv_less s h r i x : inv s (h :: r) -> h_if h = i -> lis h = [] -> tid h = [] -> In x (s_ifs s) -> i_id x = i ->
  inv (upd_if i (i_set_ref (i_ref x - 1)) s) r.
Proof.
  intros V Hi Hl Ht Ix Ex. pose proof (ids_upd_if s i (i_set_ref (i_ref x - 1)) (fun x => eq_refl)) as E.
  assert (Q : forall z, In z (s_ifs s) -> i_id z = i -> z = x) by (intros z Iz Ez; apply (if_unique _ _ z x V Iz Ix); congruence).
  destruct V. split; auto; rewrite ?E; auto.
  - intros z H. cbn in H. apply in_map_iff in H as [w [<- H]]. pose proof (v_ref0 w H) as R. rewrite cnt_cons, Hi in R.
    destruct (i_id w =? i) eqn:D; cbn; [|rewrite Z.eqb_sym, D in R; lia]. rewrite Z.eqb_sym, D in R. rewrite (Q w H ltac:(lia)) in *. lia.
  - intros g H. apply v_hif0. right. exact H.
  - intros t j d H. apply v_ht0. right. exact H.
  - intros y H K. destruct (v_th0 y H K) as [X|X]; [|exact X]. subst h. discriminate Ht.
  - simpl in v_tid0. rewrite Ht in v_tid0. exact v_tid0.
  - intros z m H M. cbn in H. apply in_map_iff in H as [w [<- H]].
    assert (N : In (HI (i_id w) (Some m)) (h :: r)) by (apply v_lis0; [exact H|]; destruct (i_id w =? i); exact M).
    replace (i_id (if i_id w =? i then i_set_ref (i_ref x - 1) w else w)) with (i_id w) by (destruct (i_id w =? i); reflexivity).
    destruct N as [N|N]; [|exact N]. subst h. discriminate Hl.
  - intros j m H. apply (v_al0 j). right. exact H.
  - simpl in v_ll0. rewrite Hl in v_ll0. exact v_ll0.
Qed.
Lemma nodup_map_filter {A} (f : A -> Z) g l : NoDup (map f l) -> NoDup (map f (filter g l)).
Proof.
  induction l as [|y l IH]; [auto|]. intro N. inversion N; subst. simpl. destruct (g y); simpl; auto.
  constructor; auto. intro H. apply H1. apply in_map_iff in H as [z [E I]]. apply filter_In in I as [I _]. rewrite <- E. apply in_map. exact I.
Qed.
(** [s] without the interface [i] *)
Lemma inv_gone s i l r : inv s (HI i l :: r) -> (forall h, In h r -> h_if h <> i) ->
  let s' := set_ifs (set_ts s (filter (fun t => negb (t_if t =? i)) (s_ts s))) (filter (fun y => negb (i_id y =? i)) (s_ifs s)) in
  inv (match l with Some l => set_lis s' (filter (fun y => negb (y =? l)) (s_lis s')) | None => s' end) r.
Proof.
  intros V O s'. set (s2 := match l with Some l => _ | None => _ end).
  assert (A : s_ifs s2 = filter (fun y => negb (i_id y =? i)) (s_ifs s) /\ s_ts s2 = filter (fun t => negb (t_if t =? i)) (s_ts s) /\ s_next s2 = s_next s)
    by (unfold s2; destruct l; repeat split).
  destruct A as [A1 [A2 A3]].
  assert (E : forall j, j <> i -> In j (ids s) -> In j (ids s2)).
  { intros j N H. unfold ids in *. rewrite A1. apply in_map_iff in H as [x [<- H]]. apply in_map. apply filter_In. split; [exact H|]. apply negb_true_iff. lia. }
  destruct V. split.
  - unfold ids. rewrite A1. apply nodup_map_filter. exact v_ids0.
  - intros j H. rewrite A3. apply v_lt0. unfold ids in *. rewrite A1 in H. apply in_map_iff in H as [x [<- H]]. apply filter_In in H as [H _]. apply in_map. exact H.
  - destruct v_t0 as [N F]. split; rewrite A2; [apply nodup_map_filter; exact N|]. rewrite A3. apply Forall_forall. intros y H. apply filter_In in H as [H _].
    rewrite Forall_forall in F. auto.
  - intros y H. rewrite A2 in H. apply filter_In in H as [H K]. apply E; [|auto]. apply negb_true_iff in K. lia.
  - intros x H. rewrite A1 in H. apply filter_In in H as [H K]. rewrite (v_ref0 x H), cnt_cons. cbn. apply negb_true_iff in K. rewrite Z.eqb_sym, K. lia.
  - intros h H. apply E; [auto|]. apply v_hif0. right. exact H.
  - intros t j d H. destruct (v_ht0 t j d (or_intror H)) as [y [I K]]. exists y. split; [|exact K]. rewrite A2. apply filter_In. split; [exact I|].
    apply negb_true_iff. specialize (O _ H). cbn in O. unfold key in K. injection K as K1 K2 K3 K4 K5. lia.
  - intros y H K. rewrite A2 in H. apply filter_In in H as [H _]. destruct (v_th0 y H K) as [X|X]; [discriminate X|exact X].
  - exact v_tid0.
  - intros x m H M. rewrite A1 in H. apply filter_In in H as [H K]. destruct (v_lis0 x m H M) as [X|X]; [|exact X]. injection X as X _.
    apply negb_true_iff in K. lia.
  - intros j m H. unfold s2. pose proof (v_al0 j m (or_intror H)) as B. destruct l as [l|]; [|exact B]. cbn. apply filter_In. split; [exact B|].
    apply negb_true_iff. apply Z.eqb_neq. intros ->. simpl in v_ll0. inversion v_ll0; subst. apply H2. apply in_flat_map. exists (HI j (Some l)).
    split; [exact H|left; reflexivity].
  - simpl in v_ll0. destruct l; simpl in v_ll0; [inversion v_ll0; subst|]; assumption.
Qed.
(** a target and an anonymous reference to its interface *)
Lemma inv_untarget s t i d r : inv s (HT t i d :: r) -> inv (set_ts s (filter (fun y => negb (t_id y =? t)) (s_ts s))) (HI i None :: r).
Proof.
  intro V. destruct (v_ht _ _ V t i d (or_introl eq_refl)) as [y0 [I0 K0]].
  unfold key in K0. injection K0 as K1 K2 K3 K4 K5. destruct V. split; auto.
  - destruct v_t0 as [N F]. split; cbn; [apply nodup_map_filter; exact N|]. apply Forall_forall. intros y H. apply filter_In in H as [H _].
    rewrite Forall_forall in F. auto.
  - intros y H. cbn in H. apply filter_In in H as [H _]. apply (v_tif0 y H).
  - intros x H. rewrite (v_ref0 x H), !cnt_cons. reflexivity.
  - intros h [<-|H]; [apply (v_hif0 (HT t i d)); left; reflexivity|]. apply v_hif0. right. exact H.
  - intros u j e [H|H]; [discriminate H|]. destruct (v_ht0 u j e (or_intror H)) as [y [I K]]. exists y. split; [|exact K]. cbn. apply filter_In.
    split; [exact I|]. apply negb_true_iff, Z.eqb_neq. intro X. unfold key in K. injection K as L1 L2 L3 L4 L5. simpl in v_tid0. inversion v_tid0; subst.
    apply H2. apply in_flat_map. exists (HT (t_id y) (t_if y) (t_dst y)). split; [exact H|left; exact X].
  - intros y H K. cbn in H. apply filter_In in H as [H N]. destruct (v_th0 y H K) as [X|X]; [|right; exact X]. injection X as X _ _.
    apply negb_true_iff in N. lia.
  - simpl in *. inversion v_tid0; assumption.
  - intros x m H M. destruct (v_lis0 x m H M) as [X|X]; [discriminate X|right; exact X].
  - intros j m [H|H]; [discriminate H|]. apply (v_al0 j). right. exact H.
Qed.
Lemma inv_create s i d r : inv s (HI i None :: r) -> inv (create_target s i d Uni) (HT (s_next s) i d :: r).
Proof.
  intro V. pose proof (k_ids _ _ (keeps_create s i d Uni) (v_t _ _ V)) as T.
  assert (O : forall t j e, In (HT t j e) r -> t < s_next s).
  { intros t j e H. destruct (v_ht _ _ V t j e (or_intror H)) as [y [I K]]. destruct (v_t _ _ V) as [_ F]. rewrite Forall_forall in F. specialize (F y I).
    unfold key in K. injection K as K1 K2 K3 K4 K5. cbn in F. lia. }
  destruct V. split; auto.
  - intros j H. cbn. specialize (v_lt0 j H). lia.
  - intros y H. cbn in H. apply in_app_iff in H as [H|[<-|[]]]; [apply (v_tif0 y H)|]. apply (v_hif0 (HI i None)). left. reflexivity.
  - intros x H. rewrite (v_ref0 x H), !cnt_cons. reflexivity.
  - intros h [<-|H]; [apply (v_hif0 (HI i None)); left; reflexivity|]. apply v_hif0. right. exact H.
  - intros t j e [[= <- <- <-]|H].
    + exists (new_tgt s i d Uni). split; [cbn; apply in_app_iff; right; left; reflexivity|reflexivity].
    + destruct (v_ht0 t j e (or_intror H)) as [y [I K]]. exists y. split; [cbn; apply in_app_iff; left; exact I|exact K].
  - intros y H K. cbn in H. apply in_app_iff in H as [H|[<-|[]]]; [|left; reflexivity]. right. destruct (v_th0 y H K) as [X|X]; [discriminate X|exact X].
  - simpl in *. constructor; [|exact v_tid0]. intro H. apply in_flat_map in H as [[|t j e] [H1 H2]]; [destruct H2|]. destruct H2 as [H2|[]]. specialize (O _ _ _ H1). lia.
  - intros x m H M. destruct (v_lis0 x m H M) as [X|X]; [discriminate X|right; exact X].
  - intros j m [H|H]; [discriminate H|]. apply (v_al0 j). right. exact H.
Qed.
Lemma get_t_held s hs t i d : inv s hs -> In (HT t i d) hs -> exists y, get_t s t = Ok y /\ In y (s_ts s) /\ key y = (t, (i, (d, (Uni, 1)))).
Proof.
  intros V H. destruct (v_ht _ _ V t i d H) as [y [I K]]. exists y. split; [|auto]. unfold get_t, find_t.
  assert (E : t_id y = t) by (unfold key in K; congruence). destruct (find _ _) as [z|] eqn:F.
  - apply find_some in F as [F1 F2]. f_equal. apply (tids_unique s); [apply V|exact F1|exact I|lia].
  - apply (find_none _ _ F) in I. lia.
Qed.
Lemma inv_remove_target s hs t i d : inv s hs -> In (HT t i d) hs -> (exists h, In h (drop (HT t i d) hs) /\ h_if h = i) ->
  exists s', remove_target s t = Ok s' /\ inv s' (drop (HT t i d) hs).
Proof.
  intros V H [h [I E]]. destruct (get_t_held _ _ _ _ _ V H) as [y [G [Iy K]]]. unfold key in K. injection K as K1 K2 K3 K4 K5.
  pose proof (inv_perm _ _ _ (drop_perm _ _ H) V) as V1. apply inv_untarget in V1.
  unfold remove_target. rewrite G. cbn [rbind]. destruct (get_if_ok s (t_if y) (v_tif _ _ V y Iy)) as [x Gx]. rewrite Gx. cbn [rbind].
  rewrite K5. change (1 >? 1) with false. cbn [rbind]. set (s1 := set_ts s _) in *.
  assert (Ii : In i (ids s1)) by (apply (v_hif _ _ V1 (HI i None)); left; reflexivity).
  unfold remove_interface. rewrite K2. destruct (get_if_ok s1 i Ii) as [z Gz]. rewrite Gz. cbn [rbind]. destruct (get_if_in _ _ _ Gz) as [Iz Ez].
  assert (R : i_ref z > 1). { rewrite (v_ref _ _ V1 z Iz), cnt_cons, Ez. cbn. rewrite Z.eqb_refl. pose proof (cnt_pos i h _ I E). lia. }
  replace (i_ref z >? 1) with true by (symmetry; apply Z.gtb_lt; lia).
  pose proof (inv_less _ _ _ i z V1 eq_refl eq_refl eq_refl Iz Ez) as V2. set (s2 := upd_if i _ s1) in *.
  unfold destroy_target. rewrite K2. destruct (get_if_ok s2 i) as [w Gw].
  { unfold s2. rewrite ids_upd_if by reflexivity. exact Ii. }
  rewrite Gw. cbn [rbind]. eexists. split; [reflexivity|].
  refine (inv_stays s2 _ _ _ V2). rewrite K1. split; auto; [cbn; lia| | |].
  - intros [N F]. split; cbn; [apply nodup_map_filter; exact N|]. apply Forall_forall. intros q Q. apply filter_In in Q as [Q _]. rewrite Forall_forall in F. apply (F q Q).
  - intros q Q. cbn in Q. apply filter_In in Q as [Q _]. left. exists q. auto.
  - intros q Q _. exists q. split; [|reflexivity]. cbn. apply filter_In. split; [exact Q|]. cbn in Q. apply filter_In in Q as [_ Q]. exact Q.
Qed.
Lemma inv_remove_interface s hs i l : inv s hs -> In (HI i l) hs -> careful hs (RemIf i l) ->
  exists s', step s (RemIf i l) = Ok (s', []) /\ inv s' (drop (HI i l) hs).
Proof.
  intros V H C. pose proof (inv_perm _ _ _ (drop_perm _ _ H) V) as V1. set (r := drop (HI i l) hs) in *.
  assert (Ii : In i (ids s)) by (apply (v_hif _ _ V (HI i l) H)).
  cbn [step]. unfold remove_interface. destruct (get_if_ok s i Ii) as [x G]. rewrite G. cbn [rbind]. destruct (get_if_in _ _ _ G) as [Ix Ex].
  pose proof (v_ref _ _ V1 x Ix) as R. rewrite cnt_cons, Ex in R. cbn in R. rewrite Z.eqb_refl in R.
  destruct (i_ref x >? 1) eqn:D.
  - destruct l as [l|].
    + cbn in C. fold r in C. rewrite (cnt_zero i r C) in R. lia.
    + eexists. split; [reflexivity|]. apply (inv_less _ (HI i None) r i x V1); auto.
  - eexists. split; [reflexivity|]. apply inv_gone; [exact V1|]. intros h I E. pose proof (cnt_pos i h r I E). lia.
Qed.
Lemma inv_on_target s hs t f : inv s hs -> (exists i d, In (HT t i d) hs) \/ (exists y, find_t s t = Some y) -> (forall y, key (fst (f y)) = key y) ->
  exists r, on_target s t f = Ok r /\ inv (fst r) hs.
Proof.
  intros V H F. assert (G : exists y, get_t s t = Ok y /\ In y (s_ts s)).
  { destruct H as [[i [d H]]|[y H]].
    - destruct (get_t_held _ _ _ _ _ V H) as [y [A [B _]]]. eauto.
    - exists y. unfold get_t. rewrite H. split; [reflexivity|]. apply (find_t_in _ _ _ H). }
  destruct G as [y [G I]]. unfold on_target. rewrite G. cbn [rbind]. destruct (get_if_ok s (t_if y) (v_tif _ _ V y I)) as [x Gx]. rewrite Gx. cbn [rbind].
  eexists. split; [reflexivity|]. cbn [fst]. apply (inv_stays s); [|exact V]. apply stays_upd_t. exact F.
Qed.
Lemma flush_key s y force : key (fst (flush s y force)) = key y.
Proof. unfold flush. destruct (t_open y) eqn:O; [rewrite O; reflexivity|]. destruct force; [reflexivity|rewrite O; reflexivity]. Qed.
Lemma message_key s x y m full : key (fst (message s x y m full)) = key y.
Proof.
  unfold message. set (y1 := match t_open y with Some _ => _ | None => _ end).
  assert (E : key y1 = key y) by (unfold y1; destruct (t_open y); reflexivity). cbn [fst]. unfold msggen_notifier.
  destruct full; cbn [fst]; destruct (t_timer _); try exact E; rewrite <- E; apply (flush_key s y1 false).
Qed.
Lemma inv_step s hs o : inv s hs -> allowed hs o -> careful hs o -> exists r, step s o = Ok r /\ inv (fst r) (hold hs o (snd r)).
Proof.
  intros V A C.
  assert (W : forall x, fine s x -> exists r, ret x = Ok r /\ inv (fst r) hs).
  { intros x [s' [-> T]]. eexists. split; [reflexivity|]. apply (inv_stays _ _ _ T V). }
  assert (Y : forall s', stays s s' -> inv s' hs) by (intros s' T; apply (inv_stays _ _ _ T V)).
  destruct o; cbn [hold].
  - eexists. split; [reflexivity|]. cbn [fst snd got]. apply inv_add_interface; [destruct l; [apply inv_lis|]; exact V|].
    destruct l as [l|]; [|exact Logic.I]. split; [exact A|left; reflexivity].
  - destruct (inv_remove_interface s hs i l V A C) as [s' [E V']]. eexists. split; [exact E|exact V'].
  - destruct A as [l A]. pose proof (v_hif _ _ V _ A) as Ii. cbn in Ii. cbn [step]. unfold add_target.
    destruct (get_if_ok s i Ii) as [x G]. rewrite G. cbn [rbind]. destruct (find _ _) as [y|] eqn:F.
    { exfalso. apply find_some in F as [F1 F2]. apply andb_prop in F2 as [F2 F3]. apply andb_prop in F2 as [F2 F4].
      assert (K : t_kind y = Uni) by (destruct (t_kind y); try discriminate F4; reflexivity).
      pose proof (v_th _ _ V y F1 K) as H. apply Z.eqb_eq in F2, F3. rewrite F2, F3 in H. apply (C (t_id y) H). }
    eexists. split; [reflexivity|]. cbn [fst snd rbind got]. destruct (get_if_in _ _ _ G) as [Ix Ex].
    assert (E : upd_if i (i_set_ref (i_ref x + 1)) s = upd_if i (hook None) s).
    { unfold upd_if. f_equal. apply map_ext_in. intros z Iz. destruct (i_id z =? i) eqn:D; [|reflexivity].
      replace z with x; [reflexivity|]. apply (if_unique _ _ x z V Ix Iz). lia. }
    change (inv (create_target (upd_if i (i_set_ref (i_ref x + 1)) s) i dst Uni) (HT (s_next (upd_if i (i_set_ref (i_ref x + 1)) s)) i dst :: hs)).
    apply inv_create. rewrite E. apply inv_hook; [exact V|exact Ii|exact Logic.I].
  - destruct A as [i [d A]]. destruct (inv_remove_target s hs t i d V A (C i d A)) as [s' [E V']]. cbn [step]. unfold ret. rewrite E. cbn [rbind].
    eexists. split; [reflexivity|]. cbn [fst]. destruct (find _ hs) as [h|] eqn:F.
    + apply find_some in F as [F1 F2]. destruct h as [|u j e]; [discriminate F2|]. apply Z.eqb_eq in F2. subst u.
      destruct (get_t_held _ _ _ _ _ V F1) as [y [G [_ K]]]. destruct (get_t_held _ _ _ _ _ V A) as [y2 [G2 [_ K2]]].
      rewrite G in G2. injection G2 as <-. rewrite K in K2. injection K2 as -> ->. exact V'.
    + apply (find_none _ _ F) in A. cbn in A. lia.
  - apply W. destruct A as [l A]. apply (fine_reconfigure _ hs); [exact V|]. apply (v_hif _ _ V _ A).
  - destruct A.
  - destruct A.
  - apply W. destruct A as [l A]. apply (fine_changed _ hs); [exact V|]. apply (v_hif _ _ V _ A).
  - apply W. apply (fine_protocol _ hs). exact V.
  - apply W. destruct A as [l A]. destruct (get_if_ok s i (v_hif _ _ V _ A)) as [x G]. rewrite G. cbn [rbind]. eexists. split; [reflexivity|].
    apply stays_upd_if. reflexivity.
  - pose proof A as [i [d H]]. destruct (get_t_held _ _ _ _ _ V H) as [y [G [I _]]]. cbn [step]. rewrite G. cbn [rbind].
    destruct (get_if_ok s (t_if y) (v_tif _ _ V y I)) as [x Gx]. rewrite Gx. cbn [rbind].
    apply inv_on_target; [exact V|left; exact A|]. intro z. apply message_key.
  - apply inv_on_target; [exact V|left; exact A|]. intro z. apply flush_key.
  - assert (N : exists r : st * list out, Ok (s, []) = Ok r /\ inv (fst r) hs) by (eexists; split; [reflexivity|exact V]). cbn [step].
    destruct (find_t s t) as [y|] eqn:F; [|exact N]. destruct (t_timer y) as [d|]; [|exact N]. destruct (s_now s <? d); [exact N|].
    apply inv_on_target; [exact V|right; eauto|]. intro z. rewrite flush_key. reflexivity.
  - eexists. split; [reflexivity|]. apply Y. apply stays_same; reflexivity.
  - eexists. split; [reflexivity|]. apply Y. apply stays_same; reflexivity.
  - eexists. split; [reflexivity|]. apply Y. apply stays_same; reflexivity.
  - destruct A as [i [d A]]. apply W. destruct (get_t_held _ _ _ _ _ V A) as [y [G _]]. rewrite G. cbn [rbind]. eexists. split; [reflexivity|].
    apply stays_upd_t. reflexivity.
Qed.
Lemma inv_run ops : forall s hs, inv s hs -> tidy s hs ops -> safe s ops.
Proof.
  induction ops as [|o ops IH]; intros s hs V T; [eexists; reflexivity|]. destruct T as [[A C] T].
  destruct (inv_step s hs o V A C) as [r [E V']]. rewrite E in T. destruct (IH _ _ V' T) as [b B]. unfold safe. simpl. rewrite E. cbn [rbind].
  rewrite B. eexists. reflexivity.
Qed.
(** users that use and give back only what they hold and are [careful] never make the API touch a freed interface, target or
    listener; missing: users that are not, and removed sections of the configuration *)
Theorem C152_careful_partial fixed rnd ops : tidy (init fixed rnd) [] ops -> safe (init fixed rnd) ops.
Proof.
  intro T. apply (inv_run ops _ []); [|exact T]. split; try (intros; contradiction); try constructor; constructor.
Qed.
(** two users of an interface, one with a listener, and two targets *)
Definition tidy_ops : list op :=
  [AddIf (Some 9) 5; AddIf None 5; Port 269 true; Conf 1 c5 true; AddTgt 1 7; AddTgt 1 8; Msg 4 1 false; Event 1 true;
   RemTgt 4; Tick 10; Fire 5; RemIf 1 None; RemTgt 5; RemIf 1 (Some 9); AddIf None 5; Event 7 true].
Ltac no_in := repeat match goal with H : _ \/ _ |- _ => destruct H as [H|H] | H : False |- _ => destruct H end; try discriminate;
  try match goal with H : HT _ _ _ = HT _ _ _ |- _ => injection H; intros; subst; vm_compute end.
Ltac tidy_tac := vm_compute; repeat match goal with
  | |- True => exact Logic.I | |- _ /\ _ => split
  | |- forall t i d, _ => intros; no_in | |- forall t, _ => intros; no_in | |- ~ _ => intro; no_in
  | |- exists i d, _ => do 2 eexists | |- exists l, _ => eexists
  | |- _ \/ _ => first [left; reflexivity | right] | |- _ = _ => reflexivity end.
Example C152_ex : tidy (init true rnd5) [] tidy_ops /\
  match run (init true rnd5) tidy_ops with Ok r => map i_id (s_ifs (fst r)) = [7] /\ s_ts (fst r) = [] | Bad _ => False end.
Proof. split; [|vm_compute; split; reflexivity]. tidy_tac. Qed.
Print Assumptions C152_careful_partial.
