(** MPR selection on the NHDP database: flooding and routing MPRs. *)
From Verif Require Import Base MprModel MprSpec MprProofs.

Lemma asc_NoDup {A} (key : A -> Z) l : ascending key l -> NoDup (map key l).
Proof.
  induction l as [|x l IH]; intros H; cbn [map]; [constructor|]. destruct H as [H1 H2].
  constructor; [|auto]. intros I. apply in_map_iff in I as (y & E & Hy). specialize (H1 y Hy). lia.
Qed.
Lemma find_2hop_Some y hs h : find_2hop y hs = Some h -> In h hs /\ l2_addr h = y.
Proof. intros H. apply find_some in H as [H E]. apply Z.eqb_eq in E. auto. Qed.
Lemma find_2hop_In y hs h : NoDup (map l2_addr hs) -> In h hs -> l2_addr h = y -> find_2hop y hs = Some h.
Proof.
  intros N I E. unfold find_2hop. induction hs as [|a hs IH]; [destruct I|]. cbn [find]. inversion N as [|? ? N1 N2]; subst.
  destruct I as [->|I]; [now rewrite Z.eqb_refl|].
  destruct (Z.eqb_spec (l2_addr a) (l2_addr h)) as [E|]; [|auto].
  exfalso. apply N1. rewrite E. now apply in_map.
Qed.

(** adding two-hop addresses *)
Lemma add_2hops_In okh hs set y : In y (add_2hops okh hs set) ->
  In y set \/ exists h, In h hs /\ okh h = true /\ l2_addr h = ad_addr y.
Proof.
  unfold add_2hops. revert set. induction hs as [|h hs IH]; intros set; cbn [fold_left]; [auto|].
  intros H. apply IH in H as [H|(g & Hg & G)]; [|right; exists g; split; [now right|exact G]].
  destruct (okh h) eqn:K; [|auto]. unfold add_addr in H. apply set_add_In in H as [->|H]; [|auto].
  right. exists h. split; [now left|]. auto.
Qed.
Lemma add_2hops_old okh hs set y : (exists z, In z set /\ ad_addr z = y) ->
  exists z, In z (add_2hops okh hs set) /\ ad_addr z = y.
Proof.
  unfold add_2hops. revert set. induction hs as [|h hs IH]; intros set (z & Hz & E); cbn [fold_left]; [exists z; auto|].
  apply IH. exists z. split; [|exact E]. destruct (okh h); [now apply set_add_old|exact Hz].
Qed.
Lemma add_2hops_new okh hs set h : In h hs -> okh h = true ->
  exists z, In z (add_2hops okh hs set) /\ ad_addr z = l2_addr h.
Proof.
  unfold add_2hops. revert set. induction hs as [|g hs IH]; intros set H K; [destruct H|]. cbn [fold_left].
  destruct H as [->|H]; [|auto]. rewrite K. apply (add_2hops_old okh hs).
  unfold add_addr. destruct (set_add_new ad_addr (Adr (l2_addr h) 0) set) as (z & I & E). exists z. auto.
Qed.
Lemma add_2hops_asc okh hs set : ascending ad_addr set -> ascending ad_addr (add_2hops okh hs set).
Proof.
  unfold add_2hops. revert set. induction hs as [|g hs IH]; intros set H; cbn [fold_left]; [exact H|].
  apply IH. destruct (okh g); [now apply set_add_asc|exact H].
Qed.

Lemma incl_len {A} (key : A -> Z) (l : list A) (k : list Z) :
  NoDup (map key l) -> (forall x, In x l -> In (key x) k) -> zlen l <= zlen k.
Proof.
  intros N I. unfold zlen. rewrite <- (map_length key l). apply inj_le. apply NoDup_incl_length; [exact N|].
  intros z Hz. apply in_map_iff in Hz as (x & <- & Hx). auto.
Qed.

Lemma calc_steps {A} m n1 n2 (f : list n1_node * list addr_node -> M A) : zlen n1 * zlen n2 < 4294967296 ->
  let x1 := number_n1 0 n1 in let x2 := number_n2 0 (zlen n1) n2 in
  (g <- mpr_calculate m n1 n2; f g) empty_graph =
  (g <- steps m x1 x2; f g) (GState (repeat 0 (Z.to_nat (zlen x1 * zlen x2))) [] [] []).
Proof.
  intros B x1 x2.
  assert (Z1 : zlen x1 = zlen n1) by (unfold zlen, x1; now rewrite number_n1_length).
  assert (Z2 : zlen x2 = zlen n2) by (unfold zlen, x2; now rewrite number_n2_length).
  unfold bind at 1. unfold mpr_calculate. cbv zeta. fold x1. rewrite Z1. fold x2.
  rewrite u32_id by (pose proof (zlen_nonneg n1); pose proof (zlen_nonneg n2); unfold is_u32; nia).
  rewrite Z2. reflexivity.
Qed.

(** * Flooding *)
Section Flood.
Variable i : Z.
Variable db : list link.

Lemma allowed_relay l : allowed_link i l = true <-> relay_link i l.
Proof. unfold allowed_link, relay_link. destruct (ml_sym l); lia. Qed.

Lemma flood_n1_In x : In x (flood_n1 i db) -> exists l, In l db /\ relay_link i l /\
  n1_addr x = mn_orig (ml_neigh l) /\ n1_neigh x = ml_neigh l /\ n1_link x = Some l.
Proof.
  unfold flood_n1.
  enough (G : forall ls set, (forall l, In l ls -> In l db) ->
    (forall x, In x set -> exists l, In l db /\ relay_link i l /\
       n1_addr x = mn_orig (ml_neigh l) /\ n1_neigh x = ml_neigh l /\ n1_link x = Some l) ->
    In x (fold_left (fun set l => if allowed_link i l then add_n1 (ml_neigh l) (Some l) 0 set else set) ls set) ->
    exists l, In l db /\ relay_link i l /\ n1_addr x = mn_orig (ml_neigh l) /\ n1_neigh x = ml_neigh l /\ n1_link x = Some l).
  { apply G; auto. intros z []. }
  induction ls as [|l ls IH]; intros set Hl Hs; [apply Hs|]. cbn [fold_left]. apply IH; [intros; apply Hl; now right|].
  intros z Hz. destruct (allowed_link i l) eqn:Al; [|auto]. unfold add_n1 in Hz.
  apply set_add_In in Hz as [->|Hz]; [|auto]. exists l. split; [apply Hl; now left|].
  split; [now apply allowed_relay|]. auto.
Qed.
Lemma flood_n1_all l : In l db -> relay_link i l -> exists x, In x (flood_n1 i db) /\ n1_addr x = mn_orig (ml_neigh l).
Proof.
  intros Hl Rl. apply allowed_relay in Rl. unfold flood_n1.
  enough (G : forall ls set, (In l ls \/ exists x, In x set /\ n1_addr x = mn_orig (ml_neigh l)) ->
    exists x, In x (fold_left (fun set l => if allowed_link i l then add_n1 (ml_neigh l) (Some l) 0 set else set) ls set)
      /\ n1_addr x = mn_orig (ml_neigh l)) by (apply G; auto).
  induction ls as [|k ls IH]; intros set H; cbn [fold_left]; [destruct H as [[]|H]; exact H|]. apply IH.
  destruct H as [[->|H]|(x & Hx & E)].
  - right. rewrite Rl. unfold add_n1.
    destruct (set_add_new n1_addr (N1 (mn_orig (ml_neigh l)) (ml_neigh l) (Some l) 0) set) as (z & I & E). exists z. auto.
  - now left.
  - right. exists x. split; [|exact E]. destruct (allowed_link i k); [now apply set_add_old|exact Hx].
Qed.
Lemma flood_n1_asc : ascending n1_addr (flood_n1 i db).
Proof.
  unfold flood_n1. enough (G : forall ls set, ascending n1_addr set -> ascending n1_addr
    (fold_left (fun set l => if allowed_link i l then add_n1 (ml_neigh l) (Some l) 0 set else set) ls set))
    by (apply G; exact I).
  induction ls as [|k ls IH]; intros set H; cbn [fold_left]; [exact H|]. apply IH.
  destruct (allowed_link i k); [now apply set_add_asc|exact H].
Qed.

Definition flood_hop (l : link) (h : l2hop) : bool := (ml_if l =? i) && (l2_out h <=? METRIC_MAX).
Lemma flood_n2_ok n1 : (forall x, In x n1 -> n1_link x <> None) ->
  exists n2, flood_n2 i n1 = Some n2 /\ ascending ad_addr n2 /\
    (forall y, In y n2 -> exists x l h, In x n1 /\ n1_link x = Some l /\ In h (ml_2hop l) /\
       flood_hop l h = true /\ l2_addr h = ad_addr y) /\
    (forall x l h, In x n1 -> n1_link x = Some l -> In h (ml_2hop l) -> flood_hop l h = true ->
       exists y, In y n2 /\ ad_addr y = l2_addr h).
Proof.
  unfold flood_n2.
  enough (G : forall ls set, (forall x, In x ls -> n1_link x <> None) -> ascending ad_addr set ->
    exists n2, fold_left (fun acc x =>
    match acc, n1_link x with
    | Some set, Some l => Some (add_2hops (fun h => (ml_if l =? i) && (l2_out h <=? METRIC_MAX)) (ml_2hop l) set)
    | _, _ => None
    end) ls (Some set) = Some n2 /\ ascending ad_addr n2 /\
    (forall y, In y n2 -> In y set \/ exists x l h, In x ls /\ n1_link x = Some l /\ In h (ml_2hop l) /\
       flood_hop l h = true /\ l2_addr h = ad_addr y) /\
    (forall y, (exists z, In z set /\ ad_addr z = y) -> exists z, In z n2 /\ ad_addr z = y) /\
    (forall x l h, In x ls -> n1_link x = Some l -> In h (ml_2hop l) -> flood_hop l h = true ->
       exists y, In y n2 /\ ad_addr y = l2_addr h)).
  { intros H. destruct (G n1 [] H I) as (n2 & E & A & S1 & _ & S3). exists n2. split; [exact E|].
    split; [exact A|]. split; [|exact S3]. intros y Hy. destruct (S1 y Hy) as [[]|S]; exact S. }
  induction ls as [|x ls IH]; intros set Hl A; cbn [fold_left].
  - exists set. split; [reflexivity|]. split; [exact A|]. split; [auto|]. split; [auto|]. intros x l h [].
  - destruct (n1_link x) as [l|] eqn:El; [|exfalso; apply (Hl x); [now left|exact El]].
    destruct (IH (add_2hops (fun h => (ml_if l =? i) && (l2_out h <=? METRIC_MAX)) (ml_2hop l) set))
      as (n2 & E & A2 & S1 & S2 & S3).
    + intros z Hz. apply Hl. now right.
    + now apply add_2hops_asc.
    + exists n2. split; [exact E|]. split; [exact A2|]. split; [|split].
      * intros y Hy. destruct (S1 y Hy) as [S|(z & k & h & Hz & S)].
        -- apply add_2hops_In in S as [S|(h & Hh & Kh & Eh)]; [now left|].
           right. exists x, l, h. split; [now left|]. auto.
        -- right. exists z, k, h. split; [now right|exact S].
      * intros y Hy. apply S2. now apply add_2hops_old.
      * intros z k h [<-|Hz] Ek Hh Kh; [|now apply (S3 z k h)].
        rewrite El in Ek. injection Ek as <-. apply S2. now apply (add_2hops_new (flood_hop l)).
Qed.

Definition fD1 (x : n1_node) : Z := match n1_link x with Some l => ml_out l | None => 0 end.
Definition fD2 (x : n1_node) (y : Z) : Z :=
  match n1_link x with
  | Some l => match find_2hop y (ml_2hop l) with Some h => l2_out h | None => METRIC_INFINITE end
  | None => 0
  end.
Definition fW (x : n1_node) : Z := match n1_link x with Some l => ml_will l | None => 0 end.
Definition fDY (n1 : list n1_node) (y : Z) : Z :=
  match find (fun x => existsb (Z.eqb y) (mn_addrs (n1_neigh x))) n1 with
  | Some x => fD1 x
  | None => METRIC_INFINITE
  end.

Hypothesis OK : links_ok db.
Hypothesis SM : links_small db.

Lemma flooding_selection :
  exists res, flooding_mprs i db = Some res /\
  (forall l, In l res <-> In l db /\ ml_if l = i /\
     exists x, In x res /\ relay_link i x /\ mn_orig (ml_neigh x) = mn_orig (ml_neigh l)) /\
  (forall l, In l db -> relay_link i l -> ml_will l = WILL_ALWAYS -> single_links i db -> In l res) /\
  (single_links i db -> forall y c, cheapest (flood_path i db) y c ->
     (exists d, flood_direct i db y d /\ d <= c) \/
     exists l, In l res /\ relay_link i l /\ via_link l y c).
Proof.
  set (n1 := flood_n1 i db). set (x1 := number_n1 0 n1).
  assert (X1 : forall x, In x x1 -> exists l, In l db /\ relay_link i l /\
     n1_addr x = mn_orig (ml_neigh l) /\ n1_neigh x = ml_neigh l /\ n1_link x = Some l).
  { intros x Hx. apply number_n1_In in Hx as (z & Hz & -> & -> & ->). now apply flood_n1_In. }
  assert (A1 : ascending n1_addr x1) by (apply number_n1_asc, flood_n1_asc).
  destruct (flood_n2_ok n1) as (n2 & E2 & A2 & S2 & C2).
  { intros x Hx. apply flood_n1_In in Hx as (l & _ & _ & _ & _ & ->). discriminate. }
  set (x2 := number_n2 0 (zlen n1) n2).
  assert (LO : forall l, In l db -> link_ok l) by (apply Forall_forall; apply OK).
  assert (L1 : zlen n1 <= zlen db).
  { unfold zlen. rewrite <- (map_length n1_addr n1), <- (map_length (fun l => mn_orig (ml_neigh l)) db).
    apply inj_le. apply NoDup_incl_length; [apply asc_NoDup, flood_n1_asc|].
    intros a Ha. apply in_map_iff in Ha as (x & <- & Hx). apply flood_n1_In in Hx as (l & Hl & _ & -> & _).
    apply in_map_iff. exists l. auto. }
  assert (L2 : zlen n2 <= zlen (flat_map ml_2hop db)).
  { rewrite <- (map_length l2_addr) at 1 || idtac.
    replace (zlen (flat_map ml_2hop db)) with (zlen (map l2_addr (flat_map ml_2hop db)))
      by (unfold zlen; now rewrite map_length).
    apply (incl_len ad_addr); [now apply asc_NoDup|].
    intros y Hy. destruct (S2 y Hy) as (x & l & h & Hx & El & Hh & _ & <-). apply in_map.
    apply flood_n1_In in Hx as (k & Hk & _ & _ & _ & Ek). rewrite El in Ek. injection Ek as <-.
    apply in_flat_map. exists l. auto. }
  assert (B : zlen n1 * zlen n2 < 4294967296).
  { pose proof (zlen_nonneg n1). pose proof (zlen_nonneg n2). unfold links_small in SM. nia. }
  destruct (cells_ok n1 n2 B) as [Cell Cells]. fold x1 x2 in Cell, Cells.
  assert (Z1 : zlen x1 = zlen n1) by (unfold zlen, x1; now rewrite number_n1_length).
  assert (Z2 : zlen x2 = zlen n2) by (unfold zlen, x2; now rewrite number_n2_length).
  assert (P1 : forall x, In x x1 -> 0 <= fD1 x).
  { intros x Hx. destruct (X1 x Hx) as (l & Hl & _ & _ & _ & El). unfold fD1. rewrite El. apply (LO l Hl). }
  assert (P2 : forall x y, In x x1 -> 0 <= fD2 x y).
  { intros x y Hx. destruct (X1 x Hx) as (l & Hl & _ & _ & _ & El). unfold fD2. rewrite El.
    destruct (find_2hop y (ml_2hop l)) as [h|] eqn:Eh; [|unfold METRIC_INFINITE; lia].
    apply find_2hop_Some in Eh as [Hh _]. destruct (LO l Hl) as (_ & F & _). rewrite Forall_forall in F. apply (F h Hh). }
  (* a link and its address *)
  assert (V : forall x l h, In x x1 -> n1_link x = Some l -> In h (ml_2hop l) -> fD2 x (l2_addr h) = l2_out h).
  { intros x l h Hx El Hh. unfold fD2. rewrite El. destruct (X1 x Hx) as (k & Hk & _ & _ & _ & Ek).
    rewrite El in Ek. injection Ek as <-. destruct (LO l Hk) as (_ & _ & N).
    now rewrite (find_2hop_In (l2_addr h) (ml_2hop l) h N Hh eq_refl). }
  assert (DYr : forall y, fDY x1 y <= METRIC_MAX \/ fDY x1 y = METRIC_INFINITE).
  { intros y. unfold fDY. destruct (find _ x1) as [x|] eqn:F; [|now right]. left.
    apply find_some in F as [Hx _]. destruct (X1 x Hx) as (l & _ & R & _ & _ & El). unfold fD1. rewrite El. apply R. }
  destruct (selection_covers flooding x1 x2 fD1 fD2 fW (fDY x1)) as (s & E & Sub & Al & Cov).
  - intros x Hx. destruct (X1 x Hx) as (l & _ & _ & _ & _ & El). cbn. unfold flood_d1, fD1. now rewrite El.
  - intros x y Hx. destruct (X1 x Hx) as (l & _ & _ & _ & _ & El). cbn. unfold flood_d2, fD2. now rewrite El.
  - intros x Hx. destruct (X1 x Hx) as (l & _ & _ & _ & _ & El). cbn. unfold flood_will, fW. now rewrite El.
  - intros y. cbn. unfold flood_d1_y, fDY, fD1. destruct (find _ x1) as [x|] eqn:F; [|reflexivity].
    apply find_some in F as [Hx _]. destruct (X1 x Hx) as (l & _ & _ & _ & _ & El). now rewrite El.
  - exact P1.
  - exact P2.
  - rewrite Z1, Z2. exact Cell.
  - exact Cells.
  - now rewrite Z1, Z2.
  - intros x Hx. destruct (X1 x Hx) as (l & _ & _ & -> & -> & _). reflexivity.
  - intros x y Hx Hy Id. apply (asc_inj n1_addr x1); auto.
    destruct (X1 x Hx) as (l & Hl & _ & -> & En & _). destruct (X1 y Hy) as (k & Hk & _ & -> & Ek & _).
    apply OK; auto. now rewrite <- En, <- Ek.
  - intros x y Hx Hy Ea. now apply (asc_inj n1_addr x1).
  - intros y Hy. apply number_n2_In in Hy as (z & Hz & ->).
    destruct (S2 z Hz) as (x & l & h & Hx & El & Hh & K & <-).
    destruct (number_n1_all n1 0 x Hx) as (x' & Hx' & _ & _ & El'). rewrite El in El'.
    exists x'. split; [exact Hx'|]. apply andb_true_iff in K as [_ K].
    destruct (X1 x' Hx') as (k & Hk & Rk & _ & _ & Ek). rewrite El' in Ek. injection Ek as <-.
    unfold D, path_cost. rewrite (V x' l h Hx' El' Hh).
    replace (fD1 x') with (ml_out l) by (unfold fD1; now rewrite El').
    destruct Rk as (_ & _ & Rk & _).
    destruct (Z.gtb_spec (ml_out l) METRIC_MAX); [lia|]. destruct (Z.gtb_spec (l2_out h) METRIC_MAX); [lia|].
    cbn [orb]. destruct (LO l Hk) as (Q & F & _). rewrite Forall_forall in F. destruct (F h Hh) as [_ F'].
    rewrite u32_id; unfold METRIC_INFINITE_PATH, METRIC_MAX, is_u32 in *; lia.
  - intros x Hx _. destruct (X1 x Hx) as (l & _ & _ & _ & En & El). exists l. rewrite En. auto.
  - exact DYr.
  - unfold flooding_mprs. fold n1. rewrite E2, calc_steps by exact B. fold x1 x2.
    rewrite E.
    set (res := filter _ db). exists res. split; [reflexivity|].
    assert (Res : forall l, In l res <-> In l db /\ ml_if l = i /\ exists x, In x (g_mpr s) /\ n1_addr x = mn_orig (ml_neigh l)).
    { intros l. unfold res. rewrite filter_In, andb_true_iff, Z.eqb_eq. unfold find_mpr. rewrite existsb_exists.
      split; [intros (A & Bq & x & C & Dq)|intros (A & Bq & x & C & Dq)]; repeat split; auto; exists x; split; auto; lia. }
    assert (Mem : forall x, In x (g_mpr s) -> exists l, In l res /\ relay_link i l /\ n1_link x = Some l /\
       n1_addr x = mn_orig (ml_neigh l)).
    { intros x Hx. destruct (X1 x (Sub x Hx)) as (l & Hl & Rl & Ea & _ & El). exists l.
      split; [apply Res; split; [exact Hl|split; [apply Rl|exists x; auto]]|]. auto. }
    split; [|split].
    + intros l. rewrite Res. split.
      * intros (Hl & Il & x & Hx & Ea). split; [exact Hl|]. split; [exact Il|].
        destruct (Mem x Hx) as (k & Hk & Rk & _ & Ek). exists k. split; [exact Hk|]. split; [exact Rk|]. congruence.
      * intros (Hl & Il & k & Hk & _ & Ek). split; [exact Hl|]. split; [exact Il|].
        apply Res in Hk as (_ & _ & x & Hx & Ea). exists x. split; [exact Hx|]. congruence.
    + intros l Hl Rl Wl SL. destruct (flood_n1_all l Hl Rl) as (x & Hx & Ea).
      destruct (number_n1_all n1 0 x Hx) as (x' & Hx' & Ea' & _ & _).
      destruct (X1 x' Hx') as (k & Hk & Rk & Eak & _ & Ek).
      assert (k = l) by (apply SL; auto; [apply Rk|apply Rl|congruence]). subst k.
      apply Res. split; [exact Hl|]. split; [apply Rl|]. exists x'. split; [|congruence].
      apply Al; [exact Hx'|]. unfold fW. now rewrite Ek.
    + intros SL y c [(l & Hl & Rl & h & Hh & Ey & Uh & Ec) Min].
      destruct (flood_n1_all l Hl Rl) as (x & Hx & Ea).
      destruct (number_n1_all n1 0 x Hx) as (x' & Hx' & Ea' & _ & El').
      destruct (X1 x' Hx') as (k & Hk & Rk & Eak & _ & Ek).
      assert (k = l) by (apply SL; auto; [apply Rk|apply Rl|congruence]). subst k.
      destruct (C2 x l h Hx) as (y0 & Hy0 & Ey0); [congruence|exact Hh|unfold flood_hop; destruct Rl; lia|].
      destruct (number_n2_all n2 0 (zlen n1) y0 Hy0) as (y1 & Hy1 & Ey1).
      assert (U : usable fD1 fD2 x' y).
      { split; [unfold fD1; rewrite Ek; apply Rl|]. rewrite <- Ey, (V x' l h Hx' Ek Hh). exact Uh. }
      assert (Cx : fD1 x' + fD2 x' y = c).
      { rewrite <- Ey at 1. rewrite (V x' l h Hx' Ek Hh). unfold fD1. rewrite Ek. lia. }
      specialize (Cov y1 Hy1). rewrite Ey1, Ey0, Ey in Cov. destruct Cov as [(Ni & Cov)|(z & Hz & (U1 & U2) & Cov)].
      * left. specialize (Cov x' Hx' U). unfold fDY in Ni, Cov.
        destruct (find _ x1) as [w|] eqn:F; [|now elim Ni]. apply find_some in F as [Hw Fw].
        destruct (X1 w Hw) as (k & Hk' & Rk' & _ & En & Ek'). exists (ml_out k). split.
        -- exists k. split; [exact Hk'|]. split; [exact Rk'|]. split; [|reflexivity].
           rewrite <- En. apply existsb_exists in Fw as (a & Ia & Ea0). apply Z.eqb_eq in Ea0. subst a. exact Ia.
        -- unfold fD1 in Cov at 1. rewrite Ek' in Cov. lia.
      * right. destruct (Mem z Hz) as (k & Hk' & Rk' & Ek' & _). exists k. split; [exact Hk'|]. split; [exact Rk'|].
        specialize (Cov x' Hx' U). unfold fD2 in U2. rewrite Ek' in U2.
        destruct (find_2hop y (ml_2hop k)) as [g|] eqn:Fg; [|unfold METRIC_INFINITE, METRIC_MAX in U2; lia].
        apply find_2hop_Some in Fg as [Hg Eg]. exists g. split; [exact Hg|]. split; [exact Eg|]. split; [exact U2|].
        apply Z.le_antisymm.
        -- apply Min. exists k. apply Res in Hk' as (Hk' & _). split; [exact Hk'|]. split; [exact Rk'|].
           exists g. auto.
        -- rewrite <- Eg in Cov at 1. rewrite (V z k g (Sub z Hz) Ek' Hg) in Cov.
           unfold fD1 in Cov at 1. rewrite Ek' in Cov. lia.
Qed.
End Flood.

(** * Routing *)
Section Routing.
Variable db : list neigh.

Lemma allowed_relay_neigh n : allowed_neigh n = true <-> relay_neigh n.
Proof. unfold allowed_neigh, relay_neigh. lia. Qed.

Lemma route_n1_In x : In x (route_n1 db) -> exists n, In n db /\ relay_neigh n /\
  n1_addr x = mn_orig n /\ n1_neigh x = n.
Proof.
  unfold route_n1.
  enough (G : forall ls set, (forall n, In n ls -> In n db) ->
    (forall x, In x set -> exists n, In n db /\ relay_neigh n /\ n1_addr x = mn_orig n /\ n1_neigh x = n) ->
    In x (fold_left (fun set n => if allowed_neigh n then add_n1 n None 0 set else set) ls set) ->
    exists n, In n db /\ relay_neigh n /\ n1_addr x = mn_orig n /\ n1_neigh x = n).
  { apply G; auto. intros z []. }
  induction ls as [|n ls IH]; intros set Hl Hs; [apply Hs|]. cbn [fold_left]. apply IH; [intros; apply Hl; now right|].
  intros z Hz. destruct (allowed_neigh n) eqn:Al; [|auto]. unfold add_n1 in Hz.
  apply set_add_In in Hz as [->|Hz]; [|auto]. exists n. split; [apply Hl; now left|].
  split; [now apply allowed_relay_neigh|]. auto.
Qed.
Lemma route_n1_all n : In n db -> relay_neigh n -> exists x, In x (route_n1 db) /\ n1_addr x = mn_orig n.
Proof.
  intros Hn Rn. apply allowed_relay_neigh in Rn. unfold route_n1.
  enough (G : forall ls set, (In n ls \/ exists x, In x set /\ n1_addr x = mn_orig n) ->
    exists x, In x (fold_left (fun set n => if allowed_neigh n then add_n1 n None 0 set else set) ls set)
      /\ n1_addr x = mn_orig n) by (apply G; auto).
  induction ls as [|k ls IH]; intros set H; cbn [fold_left]; [destruct H as [[]|H]; exact H|]. apply IH.
  destruct H as [[->|H]|(x & Hx & E)].
  - right. rewrite Rn. unfold add_n1.
    destruct (set_add_new n1_addr (N1 (mn_orig n) n None 0) set) as (z & I & E). exists z. auto.
  - now left.
  - right. exists x. split; [|exact E]. destruct (allowed_neigh k); [now apply set_add_old|exact Hx].
Qed.
Lemma route_n1_asc : ascending n1_addr (route_n1 db).
Proof.
  unfold route_n1. enough (G : forall ls set, ascending n1_addr set -> ascending n1_addr
    (fold_left (fun set n => if allowed_neigh n then add_n1 n None 0 set else set) ls set))
    by (apply G; exact I).
  induction ls as [|k ls IH]; intros set H; cbn [fold_left]; [exact H|]. apply IH.
  destruct (allowed_neigh k); [now apply set_add_asc|exact H].
Qed.

(** all two-hop entries of a neighbor, in the order of the code *)
Definition hops (n : neigh) : list l2hop := concat (mn_l2 n).
Lemma add_concat okh hss set :
  fold_left (fun set hs => add_2hops okh hs set) hss set = add_2hops okh (concat hss) set.
Proof.
  revert set. induction hss as [|hs hss IH]; intros set; cbn [fold_left concat]; [reflexivity|].
  rewrite IH. unfold add_2hops. now rewrite fold_left_app.
Qed.
Lemma route_n2_ok n1 : ascending ad_addr (route_n2 n1) /\
    (forall y, In y (route_n2 n1) -> exists x h, In x n1 /\ In h (hops (n1_neigh x)) /\
       l2_in h <= METRIC_MAX /\ l2_addr h = ad_addr y) /\
    (forall x h, In x n1 -> In h (hops (n1_neigh x)) -> l2_in h <= METRIC_MAX ->
       exists y, In y (route_n2 n1) /\ ad_addr y = l2_addr h).
Proof.
  unfold route_n2.
  enough (G : forall ls set, ascending ad_addr set ->
    let n2 := fold_left (fun set x =>
      fold_left (fun set hs => add_2hops (fun h => l2_in h <=? METRIC_MAX) hs set) (mn_l2 (n1_neigh x)) set) ls set in
    ascending ad_addr n2 /\
    (forall y, In y n2 -> In y set \/ exists x h, In x ls /\ In h (hops (n1_neigh x)) /\
       l2_in h <= METRIC_MAX /\ l2_addr h = ad_addr y) /\
    (forall y, (exists z, In z set /\ ad_addr z = y) -> exists z, In z n2 /\ ad_addr z = y) /\
    (forall x h, In x ls -> In h (hops (n1_neigh x)) -> l2_in h <= METRIC_MAX ->
       exists y, In y n2 /\ ad_addr y = l2_addr h)).
  { destruct (G n1 [] I) as (A & S1 & _ & S3). split; [exact A|]. split; [|exact S3].
    intros y Hy. destruct (S1 y Hy) as [[]|S]; exact S. }
  induction ls as [|x ls IH]; intros set A; cbv zeta; cbn [fold_left].
  - split; [exact A|]. split; [auto|]. split; [auto|]. intros x h [].
  - rewrite add_concat. fold (hops (n1_neigh x)).
    destruct (IH (add_2hops (fun h => l2_in h <=? METRIC_MAX) (hops (n1_neigh x)) set)) as (A2 & S1 & S2 & S3).
    + now apply add_2hops_asc.
    + cbv zeta in *. split; [exact A2|]. split; [|split].
      * intros y Hy. destruct (S1 y Hy) as [S|(z & h & Hz & S)].
        -- apply add_2hops_In in S as [S|(h & Hh & Kh & Eh)]; [now left|].
           right. exists x, h. split; [now left|]. split; [exact Hh|]. split; [lia|exact Eh].
        -- right. exists z, h. split; [now right|exact S].
      * intros y Hy. apply S2. now apply add_2hops_old.
      * intros z h [<-|Hz] Hh Kh; [|now apply (S3 z h)].
        apply S2. apply (add_2hops_new (fun h => l2_in h <=? METRIC_MAX)); [exact Hh|lia].
Qed.

Lemma first_2hop_Some y hss h : first_2hop y hss = Some h -> In h (concat hss) /\ l2_addr h = y.
Proof.
  induction hss as [|hs hss IH]; cbn [first_2hop concat]; [discriminate|].
  destruct (find_2hop y hs) as [g|] eqn:F; intros H.
  - injection H as ->. apply find_2hop_Some in F as [F E]. split; [apply in_or_app; now left|exact E].
  - destruct (IH H) as [I E]. split; [apply in_or_app; now right|exact E].
Qed.
Lemma first_2hop_None y hss h : In h (concat hss) -> l2_addr h = y -> first_2hop y hss <> None.
Proof.
  intros I E. induction hss as [|hs hss IH]; cbn [first_2hop concat] in *; [destruct I|].
  destruct (find_2hop y hs) as [g|] eqn:F; [discriminate|]. apply in_app_or in I as [I|I]; [|auto].
  exfalso. apply (find_none _ _ F) in I. lia.
Qed.
Lemma hops_In n h : In h (hops n) <-> exists hs, In hs (mn_l2 n) /\ In h hs.
Proof. unfold hops. rewrite in_concat. reflexivity. Qed.

Definition rD1 (x : n1_node) : Z := mn_in (n1_neigh x).
Definition rD2 (x : n1_node) (y : Z) : Z :=
  match first_2hop y (mn_l2 (n1_neigh x)) with Some h => l2_in h | None => METRIC_INFINITE end.
Definition rW (x : n1_node) : Z := mn_will (n1_neigh x).
Definition rDY (n1 : list n1_node) (y : Z) : Z :=
  match find (fun x => existsb (Z.eqb y) (mn_addrs (n1_neigh x))) n1 with
  | Some x => mn_in (n1_neigh x)
  | None => METRIC_INFINITE
  end.

Hypothesis OK : neighs_ok db.
Hypothesis SM : neighs_small db.
Hypothesis SAME : forall n, In n db -> same_metrics n.
Hypothesis NOALWAYS : forall n, In n db -> relay_neigh n -> mn_will n <> WILL_ALWAYS.

Lemma NoDup_map_inj {A B} (f : A -> B) l x y : NoDup (map f l) -> In x l -> In y l -> f x = f y -> x = y.
Proof.
  induction l as [|a l IH]; intros N I J E; [destruct I|]. cbn [map] in N. inversion N as [|? ? N1 N2]; subst.
  destruct I as [->|I]; destruct J as [->|J]; auto.
  - exfalso. apply N1. rewrite E. now apply in_map.
  - exfalso. apply N1. rewrite <- E. now apply in_map.
Qed.

Lemma routing_selection :
  exists res, routing_mprs db = Some res /\
  (forall n, In n res -> In n db /\ relay_neigh n) /\
  (forall y c, cheapest (route_path db) y c ->
     (exists d, route_direct db y d /\ d <= c) \/
     exists n, In n res /\ via_neigh n y c).
Proof.
  set (n1 := route_n1 db). set (x1 := number_n1 0 n1).
  assert (X1 : forall x, In x x1 -> exists n, In n db /\ relay_neigh n /\ n1_addr x = mn_orig n /\ n1_neigh x = n).
  { intros x Hx. apply number_n1_In in Hx as (z & Hz & -> & -> & _). now apply route_n1_In. }
  assert (A1 : ascending n1_addr x1) by (apply number_n1_asc, route_n1_asc).
  set (n2 := route_n2 n1). destruct (route_n2_ok n1) as (A2 & S2 & C2). fold n2 in A2, S2, C2.
  set (x2 := number_n2 0 (zlen n1) n2).
  assert (LO : forall n, In n db -> neigh_ok n) by (apply Forall_forall; apply OK).
  assert (HO : forall n h, In n db -> In h (hops n) -> l2_ok h).
  { intros n h Hn Hh. apply hops_In in Hh as (hs & Ihs & Ih). destruct (LO n Hn) as (_ & F).
    rewrite Forall_forall in F. specialize (F hs Ihs). rewrite Forall_forall in F. auto. }
  assert (L1 : zlen n1 <= zlen db).
  { replace (zlen db) with (zlen (map mn_orig db)) by (unfold zlen; now rewrite map_length).
    apply (incl_len n1_addr); [apply asc_NoDup, route_n1_asc|].
    intros x Hx. apply route_n1_In in Hx as (n & Hn & _ & -> & _). now apply in_map. }
  assert (L2 : zlen n2 <= zlen (flat_map (fun n => concat (mn_l2 n)) db)).
  { replace (zlen (flat_map (fun n => concat (mn_l2 n)) db))
      with (zlen (map l2_addr (flat_map (fun n => concat (mn_l2 n)) db))) by (unfold zlen; now rewrite map_length).
    apply (incl_len ad_addr); [now apply asc_NoDup|].
    intros y Hy. destruct (S2 y Hy) as (x & h & Hx & Hh & _ & <-). apply in_map.
    apply route_n1_In in Hx as (n & Hn & _ & _ & En). apply in_flat_map. exists n. rewrite En in Hh. auto. }
  assert (B : zlen n1 * zlen n2 < 4294967296).
  { pose proof (zlen_nonneg n1). pose proof (zlen_nonneg n2). unfold neighs_small in SM. nia. }
  destruct (cells_ok n1 n2 B) as [Cell Cells]. fold x1 x2 in Cell, Cells.
  assert (Z1 : zlen x1 = zlen n1) by (unfold zlen, x1; now rewrite number_n1_length).
  assert (Z2 : zlen x2 = zlen n2) by (unfold zlen, x2; now rewrite number_n2_length).
  assert (P1 : forall x, In x x1 -> 0 <= rD1 x).
  { intros x Hx. destruct (X1 x Hx) as (n & Hn & _ & _ & En). unfold rD1. rewrite En. apply (LO n Hn). }
  assert (P2 : forall x y, In x x1 -> 0 <= rD2 x y).
  { intros x y Hx. destruct (X1 x Hx) as (n & Hn & _ & _ & En). unfold rD2. rewrite En.
    destruct (first_2hop y (mn_l2 n)) as [h|] eqn:Eh; [|unfold METRIC_INFINITE; lia].
    apply first_2hop_Some in Eh as [Hh _]. apply (HO n h Hn Hh). }
  assert (V : forall x h, In x x1 -> In h (hops (n1_neigh x)) -> rD2 x (l2_addr h) = l2_in h).
  { intros x h Hx Hh. destruct (X1 x Hx) as (n & Hn & _ & _ & En). unfold rD2. rewrite En in *.
    destruct (first_2hop (l2_addr h) (mn_l2 n)) as [g|] eqn:Eg;
      [|now apply (first_2hop_None (l2_addr h) (mn_l2 n) h) in Eg].
    apply first_2hop_Some in Eg as [Hg Eg]. apply hops_In in Hh as (hs & I1 & I2). apply hops_In in Hg as (gs & J1 & J2).
    apply (SAME n Hn gs g hs h); auto. }
  assert (DYr : forall y, rDY x1 y <= METRIC_MAX \/ rDY x1 y = METRIC_INFINITE).
  { intros y. unfold rDY. destruct (find _ x1) as [x|] eqn:F; [|now right]. left.
    apply find_some in F as [Hx _]. destruct (X1 x Hx) as (n & _ & R & _ & ->). apply R. }
  destruct (selection_covers routing x1 x2 rD1 rD2 rW (rDY x1)) as (s & E & Sub & Al & Cov).
  - reflexivity.
  - reflexivity.
  - reflexivity.
  - reflexivity.
  - exact P1.
  - exact P2.
  - rewrite Z1, Z2. exact Cell.
  - exact Cells.
  - now rewrite Z1, Z2.
  - intros x Hx. destruct (X1 x Hx) as (n & _ & _ & -> & ->). reflexivity.
  - intros x y Hx Hy Id. apply (asc_inj n1_addr x1); auto.
    destruct (X1 x Hx) as (n & Hn & _ & -> & En). destruct (X1 y Hy) as (k & Hk & _ & -> & Ek).
    rewrite En, Ek in Id. destruct OK as (_ & N & _). now rewrite (NoDup_map_inj mn_id db n k N Hn Hk Id).
  - intros x y Hx Hy Ea. now apply (asc_inj n1_addr x1).
  - intros y Hy. apply number_n2_In in Hy as (z & Hz & ->).
    destruct (S2 z Hz) as (x & h & Hx & Hh & K & <-).
    destruct (number_n1_all n1 0 x Hx) as (x' & Hx' & _ & En & _). rewrite <- En in Hh.
    exists x'. split; [exact Hx'|].
    destruct (X1 x' Hx') as (k & Hk & Rk & _ & Ek).
    unfold D, path_cost. rewrite (V x' h Hx' Hh). unfold rD1. rewrite Ek in *.
    destruct Rk as (_ & Rk & _).
    destruct (Z.gtb_spec (mn_in k) METRIC_MAX); [lia|]. destruct (Z.gtb_spec (l2_in h) METRIC_MAX); [lia|].
    cbn [orb]. destruct (LO k Hk) as (Q & _). destruct (HO k h Hk Hh) as [F' _].
    rewrite u32_id; unfold METRIC_INFINITE_PATH, METRIC_MAX, is_u32 in *; lia.
  - intros x Hx Wx. destruct (X1 x Hx) as (n & Hn & Rn & _ & En). exfalso. apply (NOALWAYS n Hn Rn).
    unfold rW in Wx. now rewrite En in Wx.
  - exact DYr.
  - unfold routing_mprs. cbv zeta. fold n1. fold n2. rewrite calc_steps by exact B. fold x1 x2. rewrite E.
    set (res := filter _ db). exists res. split; [reflexivity|].
    assert (Res : forall n, In n res <-> In n db /\ exists x, In x (g_mpr s) /\ n1_addr x = mn_orig n).
    { intros n. unfold res. rewrite filter_In. unfold find_mpr. rewrite existsb_exists.
      split; [intros (A & x & C & Dq)|intros (A & x & C & Dq)]; split; auto; exists x; split; auto; lia. }
    assert (Own : forall x n, In x x1 -> In n db -> n1_addr x = mn_orig n -> n1_neigh x = n /\ relay_neigh n).
    { intros x n Hx Hn Ea. destruct (X1 x Hx) as (k & Hk & Rk & Ek & En). rewrite Ek in Ea.
      destruct OK as (_ & _ & N). rewrite (NoDup_map_inj mn_orig db k n N Hk Hn Ea) in *. auto. }
    split.
    + intros n Hn. apply Res in Hn as (Hn & x & Hx & Ea). split; [exact Hn|]. now apply (Own x n (Sub x Hx) Hn Ea).
    + intros y c [(n & Hn & Rn & hs & h & Ihs & Ih & Ey & Uh & Ec) Min].
      assert (Hh : In h (hops n)) by (apply hops_In; exists hs; auto).
      destruct (route_n1_all n Hn Rn) as (x & Hx & Ea).
      destruct (number_n1_all n1 0 x Hx) as (x' & Hx' & Ea' & En' & _).
      destruct (Own x' n Hx' Hn ltac:(congruence)) as [En _].
      destruct (C2 x h Hx) as (y0 & Hy0 & Ey0); [rewrite <- En', En; exact Hh|exact Uh|].
      destruct (number_n2_all n2 0 (zlen n1) y0 Hy0) as (y1 & Hy1 & Ey1).
      assert (Vh : rD2 x' y = l2_in h) by (rewrite <- Ey; apply V; [exact Hx'|now rewrite En]).
      assert (U : usable rD1 rD2 x' y).
      { split; [unfold rD1; rewrite En; apply Rn|]. now rewrite Vh. }
      assert (Cx : rD1 x' + rD2 x' y = c) by (rewrite Vh; unfold rD1; now rewrite En).
      specialize (Cov y1 Hy1). rewrite Ey1, Ey0, Ey in Cov. destruct Cov as [(Ni & Cov)|(z & Hz & (U1 & U2) & Cov)].
      * left. specialize (Cov x' Hx' U). unfold rDY in Ni, Cov.
        destruct (find _ x1) as [w|] eqn:F; [|now elim Ni]. apply find_some in F as [Hw Fw].
        destruct (X1 w Hw) as (k & Hk & Rk & _ & Ek). rewrite Ek in *. exists (mn_in k). split; [|lia].
        exists k. split; [exact Hk|]. split; [exact Rk|]. split; [|reflexivity].
        apply existsb_exists in Fw as (a & Ia & Ea0). apply Z.eqb_eq in Ea0. subst a. exact Ia.
      * right. destruct (X1 z (Sub z Hz)) as (k & Hk & Rk & Eak & Ek). exists k.
        split; [apply Res; split; [exact Hk|exists z; auto]|].
        specialize (Cov x' Hx' U). assert (U2' := U2). unfold rD2 in U2'. rewrite Ek in U2'.
        destruct (first_2hop y (mn_l2 k)) as [g|] eqn:Fg; [|unfold METRIC_INFINITE, METRIC_MAX in U2'; lia].
        apply first_2hop_Some in Fg as [Hg Eg]. assert (Hg' := Hg). apply hops_In in Hg' as (gs & J1 & J2).
        assert (Vg : rD2 z y = l2_in g) by (rewrite <- Eg; apply V; [auto|now rewrite Ek]).
        exists gs, g. split; [exact J1|]. split; [exact J2|]. split; [exact Eg|]. split; [exact U2'|].
        unfold rD1 in Cov, Cx. rewrite Ek, Vg in Cov.
        apply Z.le_antisymm; [|lia].
        apply Min. exists k. split; [exact Hk|]. split; [exact Rk|]. exists gs, g. auto.
Qed.
End Routing.
