(** Proofs about MPR selection: the cached, imperative selection computes the
    plain one, and the plain one covers all two-hop neighbors. *)
From Verif Require Import Base MprModel MprSpec.

Ltac dgt := match goal with |- context [?a >? ?b] => destruct (a >? b) end.
Ltac deq := match goal with |- context [?a =? ?b] => destruct (a =? b) end.
Ltac dgt_in H := match type of H with context [?a >? ?b] => destruct (a >? b) end.
Ltac deq_in H := match type of H with context [?a =? ?b] => destruct (a =? b) end.
(** * Sets *)
Section Sets.
Context {A : Type} (key : A -> Z).
Lemma set_add_In x l z : In z (set_add key x l) -> z = x \/ In z l.
Proof.
  induction l as [|y l IH]; cbn [set_add].
  - intros [H|[]]; auto.
  - destruct (key x <? key y); [intros [H|H]; auto|].
    destruct (key x =? key y); [auto|]. intros [H|H]; [right; now left|].
    destruct (IH H); auto. right; now right.
Qed.
Lemma set_add_old x l z : In z l -> In z (set_add key x l).
Proof.
  induction l as [|y l IH]; cbn [set_add]; [intros []|]. intros H.
  destruct (key x <? key y); [now right|]. destruct (key x =? key y); [exact H|].
  destruct H as [->|H]; [now left|]. right; auto.
Qed.
Lemma set_add_new x l : exists z, In z (set_add key x l) /\ key z = key x.
Proof.
  induction l as [|y l (z & I & K)]; cbn [set_add].
  - exists x. split; [now left|reflexivity].
  - destruct (Z.ltb_spec (key x) (key y)); [exists x; split; [now left|reflexivity]|].
    destruct (Z.eqb_spec (key x) (key y)) as [->|]; [exists y; split; [now left|reflexivity]|].
    exists z. split; [now right|exact K].
Qed.
Lemma set_add_nil x l : set_add key x l <> [].
Proof. destruct l as [|y l]; cbn [set_add]; [discriminate|]. destruct (key x <? key y), (key x =? key y); discriminate. Qed.
Lemma set_add_length x l : (length (set_add key x l) <= S (length l))%nat.
Proof.
  induction l as [|y l IH]; cbn [set_add]; [cbn; lia|].
  destruct (key x <? key y); [cbn; lia|]. destruct (key x =? key y); cbn [length]; lia.
Qed.
(** ascending keys *)
Fixpoint ascending (l : list A) : Prop :=
  match l with
  | [] => True
  | x :: l' => (forall y, In y l' -> key x < key y) /\ ascending l'
  end.
Lemma set_add_asc x l : ascending l -> ascending (set_add key x l).
Proof.
  induction l as [|y l IH]; cbn [set_add]; intros H.
  - cbn. split; [intros y []|exact I].
  - destruct H as [H1 H2].
    destruct (Z.ltb_spec (key x) (key y)).
    + split; [|split; assumption]. intros z [<-|Hz]; [assumption|]. specialize (H1 z Hz). lia.
    + destruct (Z.eqb_spec (key x) (key y)); [split; assumption|].
      split; [|auto]. intros z Hz. apply set_add_In in Hz as [->|Hz]; [lia|auto].
Qed.
Lemma asc_inj l x y : ascending l -> In x l -> In y l -> key x = key y -> x = y.
Proof.
  induction l as [|a l IH]; [intros _ []|]. intros [H1 H2] [<-|Hx] [<-|Hy] E; auto.
  - specialize (H1 y Hy). lia.
  - specialize (H1 x Hx). lia.
Qed.
End Sets.

Lemma ascending_map {A B} (f : A -> B) (k : A -> Z) (k' : B -> Z) l :
  (forall x, k' (f x) = k x) -> ascending k l -> ascending k' (map f l).
Proof.
  intros E. induction l as [|x l IH]; [auto|]. intros [H1 H2]. split; [|auto].
  intros y Hy. apply in_map_iff in Hy as (z & <- & Hz). rewrite !E. auto.
Qed.

(** * The selection on plain functions *)
Section Sel.
Variable m : methods.
Variable n1 : list n1_node.
Variable n2 : list addr_node.
Variable D1 : n1_node -> Z.
Variable D2 : n1_node -> Z -> Z.
Variable W : n1_node -> Z.
Variable DY : Z -> Z.
Hypothesis HD1 : forall x, In x n1 -> m_d1 m x = Some (D1 x).
Hypothesis HD2 : forall x y, In x n1 -> m_d2 m x y = Some (D2 x y).
Hypothesis HW : forall x, In x n1 -> m_will m x = Some (W x).
Hypothesis HDY : forall y, m_d1_y m n1 y = Some (DY y).
Hypothesis D1pos : forall x, In x n1 -> 0 <= D1 x.
Hypothesis D2pos : forall x y, In x n1 -> 0 <= D2 x y.

Definition D (x : n1_node) (y : Z) : Z := path_cost (D1 x) (D2 x y).
Lemma D_range x y : In x n1 -> 0 <= D x y <= METRIC_INFINITE_PATH.
Proof.
  intros H. specialize (D1pos x H). specialize (D2pos x y H). unfold D, path_cost.
  destruct (Z.gtb_spec (D1 x) METRIC_MAX), (Z.gtb_spec (D2 x y) METRIC_MAX);
    cbn [orb]; unfold METRIC_INFINITE_PATH; try lia.
  pose proof (u32_range (D1 x + D2 x y)) as U. unfold is_u32 in U. lia.
Qed.
Lemma D_finite x y : In x n1 -> D x y < METRIC_INFINITE_PATH ->
  D1 x <= METRIC_MAX /\ D2 x y <= METRIC_MAX /\ D x y = D1 x + D2 x y.
Proof.
  intros H. specialize (D1pos x H). specialize (D2pos x y H). unfold D, path_cost.
  destruct (Z.gtb_spec (D1 x) METRIC_MAX), (Z.gtb_spec (D2 x y) METRIC_MAX);
    cbn [orb]; unfold METRIC_INFINITE_PATH, METRIC_MAX in *; try lia.
  intros _. repeat split; try lia. apply u32_id. unfold is_u32. lia.
Qed.
Lemma D_sum x y : In x n1 -> D1 x <= METRIC_MAX -> D2 x y <= METRIC_MAX -> D x y = D1 x + D2 x y.
Proof.
  intros H A B. specialize (D1pos x H). specialize (D2pos x y H). unfold D, path_cost.
  destruct (Z.gtb_spec (D1 x) METRIC_MAX); [lia|]. destruct (Z.gtb_spec (D2 x y) METRIC_MAX); [lia|].
  cbn [orb]. apply u32_id. unfold METRIC_MAX in *. unfold is_u32. lia.
Qed.

(** Offsets: all pairs have their own cache cell. *)
Hypothesis Hcell : forall x y, In x n1 -> In y n2 ->
  0 <= n1_off x + ad_off y < zlen n1 * zlen n2.
Hypothesis Hcells : forall x y x' y', In x n1 -> In y n2 -> In x' n1 -> In y' n2 ->
  n1_off x + ad_off y = n1_off x' + ad_off y' -> x = x' /\ y = y'.
Hypothesis Hsmall : zlen n1 * zlen n2 < 4294967296.

Definition minY (y : Z) : Z :=
  fold_left (fun b z => if D z y <? b then D z y else b) n1 METRIC_INFINITE_PATH.

Definition ok (s : gstate) : Prop :=
  zlen (g_cache s) = zlen n1 * zlen n2 /\
  (forall x y c, In x n1 -> In y n2 -> zget (g_cache s) (n1_off x + ad_off y) = Some c ->
     c = 0 \/ c = D x (ad_addr y)) /\
  (forall a c, In (a, c) (g_mins s) -> c = minY a).

(** [f] computes [v] without changing the selection [S]. *)
Definition runs {A} (S : list Z) (f : M A) (v : A) : Prop :=
  forall s, ok s -> g_sel s = S ->
    exists s', f s = Some (v, s') /\ ok s' /\ g_sel s' = S /\ g_mpr s' = g_mpr s.

Lemma runs_ret {A} S (v : A) : runs S (ret v) v.
Proof. intros s H E. exists s. auto. Qed.
Lemma runs_bind {A B} S (f : M A) v (g : A -> M B) w :
  runs S f v -> runs S (g v) w -> runs S (bind f g) w.
Proof.
  intros Hf Hg s H E. destruct (Hf s H E) as (s1 & E1 & O1 & S1 & M1).
  destruct (Hg s1 O1 S1) as (s2 & E2 & O2 & S2 & M2).
  exists s2. unfold bind. rewrite E1. repeat split; auto; try apply O2. congruence.
Qed.
Lemma runs_lift {A} S (o : option A) v : o = Some v -> runs S (lift o) v.
Proof. intros -> s H E. exists s. auto. Qed.
Lemma runs_eq {A} S (f : M A) v w : runs S f v -> v = w -> runs S f w.
Proof. intros H <-. exact H. Qed.
Lemma runs_mfold {A B} S (f : A -> B -> M A) g l : (forall a b, In b l -> runs S (f a b) (g a b)) ->
  forall a, runs S (mfold f l a) (fold_left g l a).
Proof.
  induction l as [|b l IH]; intros H a; [apply runs_ret|].
  cbn [mfold fold_left]. eapply runs_bind; [apply H; now left|].
  apply IH. intros a' b' Hb. apply H. now right.
Qed.
Lemma runs_mexists {B} S (f : B -> M bool) g l : (forall b, In b l -> runs S (f b) (g b)) ->
  runs S (mexists f l) (existsb g l).
Proof.
  induction l as [|b l IH]; intros H; [apply runs_ret|].
  cbn [mexists existsb]. eapply runs_bind; [apply H; now left|].
  destruct (g b); [apply runs_ret|]. apply IH. intros b' Hb. apply H. now right.
Qed.

Lemma runs_d S x y : In x n1 -> In y n2 -> runs S (d_x_y m x y) (D x (ad_addr y)).
Proof.
  intros Hx Hy s (L & C & Q) E. unfold d_x_y.
  pose proof (Hcell x y Hx Hy) as R.
  rewrite u32_id by (unfold is_u32; lia).
  destruct (zget_Some (g_cache s) (n1_off x + ad_off y)) as [c Ec]; [rewrite L; exact R|].
  unfold bind at 1. unfold cache_get. rewrite Ec.
  destruct (Z.eqb_spec c 0) as [->|Nc].
  - unfold bind at 1. unfold lift. rewrite (HD1 x Hx). unfold bind at 1. rewrite (HD2 x _ Hx).
    unfold bind. unfold cache_set.
    change (path_cost (D1 x) (D2 x (ad_addr y))) with (D x (ad_addr y)).
    destruct (zset (g_cache s) (n1_off x + ad_off y) (D x (ad_addr y))) as [k|] eqn:Ek.
    + eexists. split; [reflexivity|]. split; [|split; auto].
      split; [cbn [g_cache]; rewrite (zset_len _ _ _ _ Ek); exact L|]. cbn [g_cache g_mins].
      split; [|exact Q]. intros x' y' c' Hx' Hy' Ec'. rewrite (zget_zset _ _ _ _ _ Ek) in Ec'.
      destruct (Z.eqb_spec (n1_off x' + ad_off y') (n1_off x + ad_off y)) as [Eq|Ne].
      * destruct (Hcells x' y' x y Hx' Hy' Hx Hy Eq) as [-> ->]. injection Ec' as <-. now right.
      * now apply (C x' y').
    + exfalso. unfold zset in Ek. rewrite L in Ek.
      destruct (Z.leb_spec 0 (n1_off x + ad_off y)), (Z.ltb_spec (n1_off x + ad_off y) (zlen n1 * zlen n2));
        cbn in Ek; try discriminate; lia.
  - destruct (C x y c Hx Hy Ec) as [-> | ->]; [contradiction|].
    exists s. split; [reflexivity|]. split; [repeat split; auto|]. auto.
Qed.

Lemma runs_min S y : In y n2 -> runs S (minimal_d_z_y m n1 y) (minY (ad_addr y)).
Proof.
  intros Hy s O E. unfold minimal_d_z_y, bind at 1, mins_get.
  assert (G : runs S (r <- mfold (fun b z => d <- d_x_y m z y; ret (if d <? b then d else b)) n1 METRIC_INFINITE_PATH;
    _ <- mins_set (ad_addr y) r; ret r) (minY (ad_addr y))).
  { eapply runs_bind.
    - apply runs_mfold with (g := fun b z => if D z (ad_addr y) <? b then D z (ad_addr y) else b).
      intros a b Hb. eapply runs_bind; [apply runs_d; auto|]. apply runs_ret.
    - change (fold_left _ n1 METRIC_INFINITE_PATH) with (minY (ad_addr y)).
      intros s1 (L & C & Q) E1. eexists. split; [reflexivity|]. split; [|split; auto].
      split; [exact L|]. split; [exact C|]. intros a c [Eq|I]; [injection Eq as <- <-; reflexivity|auto]. }
  destruct (find _ (g_mins s)) as [[a c]|] eqn:F.
  - apply find_some in F as [I Ea]. cbn [fst snd] in *. apply Z.eqb_eq in Ea. subst a.
    destruct O as (L & C & Q). pose proof (Q _ _ I) as Ec. cbn [snd].
    destruct (c =? 0) eqn:Z0.
    + cbn [negb]. apply G; [repeat split; auto|exact E].
    + cbn [negb]. exists s. rewrite <- Ec. repeat split; auto.
  - cbn. apply G; auto.
Qed.

(** the plain versions *)
Definition needs (y : addr_node) : bool :=
  if DY (ad_addr y) =? METRIC_INFINITE then true
  else existsb (fun x => D x (ad_addr y) <? DY (ad_addr y)) n1.
Definition setN : list addr_node :=
  fold_left (fun set y => if needs y then add_addr (ad_addr y) (ad_off y) set else set) n2 [].
Definition sel (S : list Z) (x : n1_node) : bool := existsb (Z.eqb (mn_id (n1_neigh x))) S.
Definition covered (S : list Z) (y : addr_node) : bool :=
  existsb (fun z => if D z (ad_addr y) =? minY (ad_addr y) then sel S z else false) n1.
Definition R (S : list Z) (x : n1_node) : Z :=
  if sel S x then 0 else
  fold_left (fun r y => if D x (ad_addr y) >? minY (ad_addr y) then r
                        else if covered S y then r else u32 (r + 1)) setN 0.

Lemma runs_n S : runs S (calculate_n m n1 n2) setN.
Proof.
  unfold calculate_n, setN. apply runs_mfold. intros set y Hy.
  eapply runs_bind; [apply runs_lift, HDY|].
  apply runs_bind with (v := needs y).
  - unfold needs. destruct (DY (ad_addr y) =? METRIC_INFINITE); [apply runs_ret|].
    apply runs_mexists. intros x Hx. eapply runs_bind; [apply runs_d; auto|]. apply runs_ret.
  - apply runs_ret.
Qed.

Lemma setN_In y : In y setN -> In y n2 /\ needs y = true.
Proof.
  unfold setN.
  enough (G : forall l set, (forall z, In z set -> In z n2 /\ needs z = true) -> (forall z, In z l -> In z n2) ->
    In y (fold_left (fun set y => if needs y then add_addr (ad_addr y) (ad_off y) set else set) l set) ->
    In y n2 /\ needs y = true).
  { apply G; auto. intros z []. }
  induction l as [|a l IH]; cbn [fold_left]; intros set Hs Hl; [apply Hs|].
  apply IH; [|intros z Hz; apply Hl; now right].
  intros z Hz. destruct (needs a) eqn:Na; [|auto].
  unfold add_addr in Hz. apply set_add_In in Hz as [->|Hz]; [|auto]. replace (Adr (ad_addr a) (ad_off a)) with a by now destruct a.
  split; [apply Hl; now left|exact Na].
Qed.
Lemma setN_complete y : In y n2 -> needs y = true -> exists y', In y' setN /\ ad_addr y' = ad_addr y.
Proof.
  unfold setN.
  enough (G : forall l set, ((exists y', In y' set /\ ad_addr y' = ad_addr y) \/ In y l) -> needs y = true ->
    exists y', In y' (fold_left (fun set y => if needs y then add_addr (ad_addr y) (ad_off y) set else set) l set)
      /\ ad_addr y' = ad_addr y).
  { intros; apply G; auto. }
  induction l as [|a l IH]; cbn [fold_left]; intros set H Ny; [destruct H as [H|[]]; exact H|].
  destruct H as [H|[->|H]]; (apply IH; [|exact Ny]).
  - left. destruct H as (y' & I & E). exists y'. split; [|exact E].
    destruct (needs a); [now apply set_add_old|exact I].
  - left. rewrite Ny. unfold add_addr. destruct (set_add_new ad_addr (Adr (ad_addr y) (ad_off y)) set) as (z & I & E).
    exists z. auto.
  - now right.
Qed.
Lemma setN_length : (length setN <= length n2)%nat.
Proof.
  unfold setN.
  enough (G : forall l set,
    (length (fold_left (fun set y => if needs y then add_addr (ad_addr y) (ad_off y) set else set) l set)
      <= length set + length l)%nat) by apply (G n2 []).
  induction l as [|a l IH]; intros set; cbn [fold_left length]; [lia|].
  specialize (IH (if needs a then add_addr (ad_addr a) (ad_off a) set else set)).
  pose proof (set_add_length ad_addr (Adr (ad_addr a) (ad_off a)) set). unfold add_addr in *.
  destruct (needs a); lia.
Qed.

Lemma runs_r S x : In x n1 -> runs S (calculate_r m n1 setN x) (R S x).
Proof.
  intros Hx. unfold calculate_r, R. apply runs_bind with (v := sel S x).
  { intros s O E. exists s. unfold is_sel, sel. rewrite <- E. auto. }
  destruct (sel S x); [apply runs_ret|]. apply runs_mfold. intros r y Hy. apply setN_In in Hy as [Hy _].
  eapply runs_bind; [apply runs_d; auto|]. eapply runs_bind; [apply runs_min; auto|].
  dgt; [apply runs_ret|].
  apply runs_bind with (v := covered S y); [|apply runs_ret].
  unfold covered. apply runs_mexists. intros z Hz. eapply runs_bind; [apply runs_d; auto|].
  deq; [|apply runs_ret].
  intros s O E. exists s. unfold is_sel, sel. rewrite <- E. auto.
Qed.

(** counting does not wrap *)
Lemma R_zero S x : In x n1 -> R S x = 0 <->
  (sel S x = true \/ forall y, In y setN -> D x (ad_addr y) <= minY (ad_addr y) -> covered S y = true).
Proof.
  intros Hx. unfold R. destruct (sel S x); [split; auto|].
  assert (B : Z.of_nat (length setN) < 4294967296).
  { pose proof setN_length. assert (0 < zlen n1) by (unfold zlen; destruct n1; [destruct Hx|cbn [length]; lia]).
    unfold zlen in *. nia. }
  enough (G : forall l r, 0 <= r -> r + Z.of_nat (length l) < 4294967296 ->
    let v := fold_left (fun r y => if D x (ad_addr y) >? minY (ad_addr y) then r
                        else if covered S y then r else u32 (r + 1)) l r in
    r <= v /\ (v = r <-> forall y, In y l -> D x (ad_addr y) <= minY (ad_addr y) -> covered S y = true)).
  { destruct (G setN 0 ltac:(lia) ltac:(lia)) as [_ G']. split; intros H; [right; now apply G'|].
    apply G'. destruct H as [H|H]; [discriminate H|exact H]. }
  clear B. induction l as [|y l IH]; intros r R0 B; cbn [fold_left].
  - split; [lia|]. split; [intros _ y []|reflexivity].
  - cbn [length] in B.
    set (r' := if D x (ad_addr y) >? minY (ad_addr y) then r else if covered S y then r else u32 (r + 1)).
    assert (r' = r /\ (D x (ad_addr y) <= minY (ad_addr y) -> covered S y = true) \/
            r' = r + 1 /\ ~ (D x (ad_addr y) <= minY (ad_addr y) -> covered S y = true)) as C.
    { subst r'. destruct (Z.gtb_spec (D x (ad_addr y)) (minY (ad_addr y))); [left; split; [reflexivity|lia]|].
      destruct (covered S y); [left; auto|]. right. split; [apply u32_id; unfold is_u32; lia|].
      intros H'. specialize (H' ltac:(lia)). discriminate. }
    destruct (IH r') as [L E]; [lia|lia|]. split; [lia|].
    destruct C as [[-> C]|[Er C]].
    + rewrite E. split; [intros H z [<-|Hz]; auto|intros H z Hz; apply H; now right].
    + split; [lia|]. intros H. exfalso. apply C, H. now left.
Qed.
Lemma R_nonneg S x : 0 <= R S x.
Proof.
  unfold R. destruct (sel S x); [lia|].
  enough (G : forall l r, 0 <= r -> 0 <= fold_left (fun r y => if D x (ad_addr y) >? minY (ad_addr y) then r
                        else if covered S y then r else u32 (r + 1)) l r) by (apply G; lia).
  induction l as [|y l IH]; intros r H; [exact H|]. cbn [fold_left]. apply IH.
  dgt; [exact H|]. destruct (covered S y); [exact H|].
  pose proof (u32_range (r + 1)) as U. unfold is_u32 in U. lia.
Qed.

Definition copy (x : n1_node) (s : list n1_node) : list n1_node := add_n1 (n1_neigh x) (n1_link x) (n1_off x) s.
Definition greatest_step (S : list Z) (a : option Z * list n1_node) (x : n1_node) : option Z * list n1_node :=
  if R S x >? 0 then
    match fst a with
    | None => (Some (R S x), copy x [])
    | Some g => if R S x >? g then (Some (R S x), copy x [])
                else if R S x =? g then (Some g, copy x (snd a)) else a
    end
  else a.
Definition candidates (S : list Z) : list n1_node :=
  fold_left (fun s x => copy x s) (snd (fold_left (greatest_step S) n1 (None, []))) [].
Lemma runs_greatest S : runs S (select_greatest m n1 setN) (candidates S).
Proof.
  unfold select_greatest. eapply runs_bind.
  - apply runs_mfold with (g := greatest_step S). intros [g c] x Hx.
    eapply runs_bind; [now apply runs_r|].
    eapply runs_eq; [apply runs_ret|]. reflexivity.
  - apply runs_ret.
Qed.

Hypothesis Hnode : forall x, In x n1 -> n1_addr x = mn_orig (n1_neigh x).
Lemma copy_In x s z : In x n1 -> In z (copy x s) -> z = x \/ In z s.
Proof.
  intros Hx H. unfold copy, add_n1 in H. apply set_add_In in H as [->|H]; [left|auto].
  rewrite <- (Hnode x Hx). now destruct x.
Qed.

Lemma candidates_sound S z : In z (candidates S) -> In z n1 /\ R S z > 0.
Proof.
  unfold candidates.
  assert (G1 : forall l a, (forall x, In x l -> In x n1) -> (forall z, In z (snd a) -> In z n1 /\ R S z > 0) ->
     forall z, In z (snd (fold_left (greatest_step S) l a)) -> In z n1 /\ R S z > 0).
  { induction l as [|x l IH]; intros a Hl Ha; [exact Ha|]. cbn [fold_left]. apply IH; [intros; apply Hl; now right|].
    intros w Hw. unfold greatest_step in Hw. destruct (Z.gtb_spec (R S x) 0); [|auto].
    assert (Hx : In x n1) by (apply Hl; now left).
    destruct (fst a) as [g|].
    - dgt_in Hw; [|deq_in Hw]; cbn [snd] in Hw; auto.
      + apply copy_In in Hw as [->|[]]; [split; [auto|lia]|exact Hx].
      + apply copy_In in Hw as [->|Hw]; [split; [auto|lia]| auto|exact Hx].
    - cbn [snd] in Hw. apply copy_In in Hw as [->|[]]; [split; [auto|lia]|exact Hx]. }
  specialize (G1 n1 (None, []) (fun x H => H)). cbn [snd] in G1.
  specialize (G1 (fun z (H : In z []) => match H with end)).
  set (c := snd (fold_left (greatest_step S) n1 (None, []))) in *. clearbody c.
  enough (G : forall l s, (forall x, In x l -> In x n1 /\ R S x > 0) -> (forall x, In x s -> In x n1 /\ R S x > 0) ->
    forall z, In z (fold_left (fun s x => copy x s) l s) -> In z n1 /\ R S z > 0).
  { apply G; [exact G1|intros x []]. }
  induction l as [|x l IH]; intros s Hl Hs; [exact Hs|]. cbn [fold_left].
  apply IH; [intros; apply Hl; now right|]. intros w Hw.
  destruct (Hl x (or_introl eq_refl)) as [Hx Rx].
  apply copy_In in Hw as [->|Hw]; auto.
Qed.

Lemma candidates_nil S : candidates S = [] -> forall x, In x n1 -> R S x = 0.
Proof.
  unfold candidates. intros H x Hx.
  assert (C : snd (fold_left (greatest_step S) n1 (None, [])) = []).
  { destruct (snd (fold_left (greatest_step S) n1 (None, []))) as [|y l]; [reflexivity|]. exfalso.
    cbn [fold_left] in H.
    assert (G : forall l s, s <> [] -> fold_left (fun s x => copy x s) l s <> []).
    { induction l0 as [|a l0 IH]; intros s Hs; [exact Hs|]. cbn [fold_left]. apply IH. apply set_add_nil. }
    apply (G l (copy y [])) in H; [exact H|]. apply set_add_nil. }
  pose proof (R_nonneg S x). enough (~ R S x > 0) by lia. intros P.
  assert (T : forall a y, (fst a <> None -> snd a <> []) ->
      (fst (greatest_step S a y) <> None -> snd (greatest_step S a y) <> []) /\
      (snd a <> [] -> snd (greatest_step S a y) <> []) /\
      (R S y > 0 -> snd (greatest_step S a y) <> [])).
  { intros [o c] y Ha. cbn [fst snd] in Ha. unfold greatest_step. cbn [fst snd].
    destruct (Z.gtb_spec (R S y) 0); [|cbn [fst snd]; repeat split; auto; lia].
    destruct o as [g|]; [|cbn [fst snd]; repeat split; intros; apply set_add_nil].
    assert (c <> []) by (apply Ha; discriminate).
    destruct (R S y >? g); [cbn [fst snd]; repeat split; intros; apply set_add_nil|].
    destruct (R S y =? g); cbn [fst snd]; repeat split; intros; try apply set_add_nil; assumption. }
  assert (G : forall l a, (snd a <> [] \/ In x l) -> (fst a <> None -> snd a <> []) ->
      snd (fold_left (greatest_step S) l a) <> []).
  { induction l as [|y l IH]; intros a Ha Hg; cbn [fold_left]; [destruct Ha as [Ha|[]]; exact Ha|].
    destruct (T a y Hg) as (T1 & T2 & T3).
    apply IH; [|exact T1]. destruct Ha as [Ha|[->|Ha]]; auto. }
  apply (G n1 (None, [])); auto.
Qed.

(** * The four steps *)
Hypothesis Hids : forall x y, In x n1 -> In y n1 -> mn_id (n1_neigh x) = mn_id (n1_neigh y) -> x = y.
Hypothesis Haddr : forall x y, In x n1 -> In y n1 -> n1_addr x = n1_addr y -> x = y.
Hypothesis Hfin : forall y, In y n2 -> exists x, In x n1 /\ D x (ad_addr y) < METRIC_INFINITE_PATH.
Hypothesis Halways : forall x, In x n1 -> W x = WILL_ALWAYS -> exists l, n1_link x = Some l /\ ml_neigh l = n1_neigh x.

(** The state during the selection: selected neighbors are in the set. *)
Definition inv (s : gstate) : Prop :=
  ok s /\ (forall x, In x (g_mpr s) -> In x n1) /\
  (forall x, In x n1 -> sel (g_sel s) x = true -> In x (g_mpr s)).

Lemma add_mpr_inv s x : inv s -> In x n1 ->
  exists s', add_mpr (n1_neigh x) (n1_link x) (n1_off x) s = Some (tt, s') /\
    ok s' /\ g_sel s' = g_sel s /\ (forall z, In z (g_mpr s') -> In z n1) /\
    (forall z, In z (g_mpr s) -> In z (g_mpr s')) /\ In x (g_mpr s').
Proof.
  intros (O & Sub & Sel) Hx. eexists. split; [reflexivity|]. cbn [g_mpr g_sel].
  change (add_n1 _ _ _ (g_mpr s)) with (copy x (g_mpr s)).
  split; [destruct O as (L & C & Q); repeat split; auto|]. split; [reflexivity|].
  assert (T : forall z, In z (copy x (g_mpr s)) -> In z n1)
    by (intros z Hz; apply copy_In in Hz as [->|Hz]; auto).
  split; [exact T|]. split; [intros z Hz; now apply set_add_old|].
  destruct (set_add_new n1_addr (N1 (mn_orig (n1_neigh x)) (n1_neigh x) (n1_link x) (n1_off x)) (g_mpr s)) as (z & I & E).
  enough (z = x) by (subst; exact I). apply Haddr; auto. cbn [n1_addr] in E. rewrite E, (Hnode x Hx). reflexivity.
Qed.

(** add to set and mark as selected *)
Definition choose (x : n1_node) : M unit := _ <- add_mpr (n1_neigh x) (n1_link x) (n1_off x); set_sel x.
Lemma choose_inv s x : inv s -> In x n1 ->
  exists s', choose x s = Some (tt, s') /\ inv s' /\ g_sel s' = mn_id (n1_neigh x) :: g_sel s /\
    (forall z, In z (g_mpr s) -> In z (g_mpr s')).
Proof.
  intros I Hx. destruct (add_mpr_inv s x I Hx) as (s1 & E1 & (L & C & Q) & S1 & Sub & Old & New).
  eexists. split; [unfold choose, bind; rewrite E1; reflexivity|].
  split; [|split; [cbn [g_sel]; now rewrite S1|exact Old]].
  split; [repeat split; auto|]. split; [exact Sub|]. cbn [g_sel g_mpr]. intros z Hz Sz.
  unfold sel in Sz. cbn [existsb] in Sz. apply orb_true_iff in Sz as [Ez|Sz].
  - apply Z.eqb_eq in Ez. assert (z = x) by (apply Hids; auto). subst. exact New.
  - apply Old. destruct I as (_ & _ & I). apply I; auto. rewrite <- S1. exact Sz.
Qed.

Lemma will_always_inv : forall l s, (forall x, In x l -> In x n1) -> inv s ->
  exists s', mfold (fun (_ : unit) x =>
    w <- lift (m_will m x);
    if w =? WILL_ALWAYS then
      l <- lift (n1_link x);
      add_mpr (ml_neigh l) (Some l) (n1_off x)
    else ret tt) l tt s = Some (tt, s') /\ inv s' /\
    (forall z, In z (g_mpr s) -> In z (g_mpr s')) /\
    (forall x, In x l -> W x = WILL_ALWAYS -> In x (g_mpr s')).
Proof.
  induction l as [|x l IH]; intros s Hl I.
  - exists s. split; [reflexivity|]. split; [exact I|]. split; [auto|]. intros x [].
  - assert (Hx : In x n1) by (apply Hl; now left). cbn [mfold].
    assert (Hl' : forall x, In x l -> In x n1) by (intros; apply Hl; now right).
    unfold bind at 1. unfold bind at 1. unfold lift at 1. rewrite (HW x Hx).
    destruct (Z.eqb_spec (W x) WILL_ALWAYS) as [Wx|Wx].
    + destruct (Halways x Hx Wx) as (lk & El & En). rewrite El.
      unfold bind at 1. unfold lift at 1. rewrite En, <- El.
      destruct (add_mpr_inv s x I Hx) as (s1 & E1 & O1 & S1 & Sub & Old & New). rewrite E1.
      destruct (IH s1 Hl') as (s2 & E2 & I2 & Old2 & New2).
      { split; [exact O1|]. split; [exact Sub|]. intros z Hz Sz. apply Old. apply I; auto. now rewrite <- S1. }
      exists s2. split; [exact E2|]. split; [exact I2|]. split; [auto|]. intros z [<-|Hz] Wz; auto.
    + cbn [ret]. destruct (IH s Hl' I) as (s2 & E2 & I2 & Old2 & New2).
      exists s2. split; [exact E2|]. split; [exact I2|]. split; [auto|]. intros z [<-|Hz] Wz; [contradiction|auto].
Qed.

Lemma unique_count y : In y n2 -> exists p,
  (forall S, runs S (mfold (fun p x => d2 <- lift (m_d2 m x (ad_addr y));
         ret (if d2 <=? METRIC_MAX then (u32 (fst p + 1), Some x) else p)) n1 (0, None)) p) /\
  fst p > 0 /\ exists x, snd p = Some x /\ In x n1.
Proof.
  intros Hy.
  set (g := fun (p : Z * option n1_node) x => if D2 x (ad_addr y) <=? METRIC_MAX then (u32 (fst p + 1), Some x) else p).
  exists (fold_left g n1 (0, None)). split.
  { intros S. apply runs_mfold. intros p x Hx. eapply runs_bind; [apply runs_lift, HD2, Hx|]. apply runs_ret. }
  destruct (Hfin y Hy) as (x & Hx & Fx). apply D_finite in Fx as (_ & Fx & _); [|exact Hx].
  assert (B : Z.of_nat (length n1) < 4294967296).
  { assert (0 < zlen n2) by (unfold zlen; destruct n2; [destruct Hy|cbn [length]; lia]). unfold zlen in *. nia. }
  enough (G : forall l p, (forall z, In z l -> In z n1) -> 0 <= fst p -> fst p + Z.of_nat (length l) < 4294967296 ->
    (fst p > 0 -> exists z, snd p = Some z /\ In z n1) -> (fst p > 0 \/ In x l) ->
    fst (fold_left g l p) > 0 /\ exists z, snd (fold_left g l p) = Some z /\ In z n1).
  { apply G; cbn; auto; try lia. }
  clear B. induction l as [|z l IH]; intros p Hl P0 B Hp H.
  - destruct H as [H|[]]. cbn [fold_left]. auto.
  - cbn [fold_left length] in *. unfold g at 2 4. destruct (Z.leb_spec (D2 z (ad_addr y)) METRIC_MAX) as [L|L].
    + rewrite u32_id by (unfold is_u32; lia). apply IH; cbn [fst snd]; try lia; [intros; apply Hl; now right|].
      intros _. exists z. split; [reflexivity|]. apply Hl. now left.
    + apply IH; auto; try lia; [intros; apply Hl; now right|]. destruct H as [H|[<-|H]]; auto. lia.
Qed.

Lemma unique_inv : forall l s, (forall y, In y l -> In y n2) -> inv s ->
  exists s', mfold (fun (_ : unit) y =>
    p <- mfold (fun p x =>
           d2 <- lift (m_d2 m x (ad_addr y));
           ret (if d2 <=? METRIC_MAX then (u32 (fst p + 1), Some x) else p)) n1 (0, None);
    if negb (fst p >? 0) then fault
    else if fst p =? 1 then
      x <- lift (snd p);
      _ <- add_mpr (n1_neigh x) (n1_link x) (n1_off x);
      set_sel x
    else ret tt) l tt s = Some (tt, s') /\ inv s' /\ (forall z, In z (g_mpr s) -> In z (g_mpr s')).
Proof.
  induction l as [|y l IH]; intros s Hl I.
  - exists s. split; [reflexivity|]. auto.
  - cbn [mfold]. assert (Hl' : forall y, In y l -> In y n2) by (intros; apply Hl; now right).
    destruct (unique_count y (Hl y (or_introl eq_refl))) as (p & Rp & Pp & x & Ex & Hx).
    destruct (Rp (g_sel s) s (proj1 I) eq_refl) as (s1 & E1 & O1 & S1 & M1).
    unfold bind at 1. unfold bind at 1. rewrite E1.
    destruct (Z.gtb_spec (fst p) 0); [|lia]. cbn [negb].
    assert (I1 : inv s1).
    { split; [exact O1|]. rewrite S1, M1. apply I. }
    destruct (fst p =? 1).
    + rewrite Ex. unfold bind at 1. unfold lift at 1.
      change (_ <- add_mpr (n1_neigh x) (n1_link x) (n1_off x); set_sel x) with (choose x).
      destruct (choose_inv s1 x I1 Hx) as (s2 & E2 & I2 & _ & Old). rewrite E2.
      destruct (IH s2 Hl' I2) as (s3 & E3 & I3 & Old3). exists s3. split; [exact E3|]. split; [exact I3|].
      intros z Hz. apply Old3, Old. now rewrite M1.
    + cbn [ret]. destruct (IH s1 Hl' I1) as (s3 & E3 & I3 & Old3). exists s3. split; [exact E3|].
      split; [exact I3|]. intros z Hz. apply Old3. now rewrite M1.
Qed.

(** the number of neighbors not yet selected *)
Definition todo (S : list Z) : nat := length (filter (fun x => negb (sel S x)) n1).
Lemma todo_choose S x : In x n1 -> sel S x = false -> (todo (mn_id (n1_neigh x) :: S) < todo S)%nat.
Proof.
  intros Hx Sx. unfold todo.
  assert (LE : forall l, (length (filter (fun z => negb (sel (mn_id (n1_neigh x) :: S) z)) l)
                          <= length (filter (fun z => negb (sel S z)) l))%nat).
  { induction l as [|z l IH]; cbn [filter]; [lia|]. unfold sel at 1. cbn [existsb]. fold (sel S z).
    destruct (mn_id (n1_neigh z) =? mn_id (n1_neigh x)), (sel S z); cbn [orb negb length]; lia. }
  revert Hx. clear - LE Sx. induction n1 as [|z l IH]; [intros []|]. intros Hx. cbn [filter].
  destruct Hx as [->|Hx].
  - rewrite Sx. unfold sel at 1. cbn [existsb]. rewrite Z.eqb_refl. cbn [orb negb length]. specialize (LE l). lia.
  - unfold sel at 1. cbn [existsb]. fold (sel S z). specialize (IH Hx).
    destruct (mn_id (n1_neigh z) =? mn_id (n1_neigh x)), (sel S z); cbn [orb negb length]; lia.
Qed.

Lemma remaining_inv : forall fuel s, inv s -> (todo (g_sel s) < fuel)%nat ->
  exists s', process_remaining fuel m n1 setN s = Some (tt, s') /\ inv s' /\
    (forall z, In z (g_mpr s) -> In z (g_mpr s')) /\ (forall x, In x n1 -> R (g_sel s') x = 0).
Proof.
  induction fuel as [|fuel IH]; intros s I F; [lia|]. cbn [process_remaining].
  destruct (runs_greatest (g_sel s) s (proj1 I) eq_refl) as (s1 & E1 & O1 & S1 & M1).
  unfold bind at 1. rewrite E1.
  assert (I1 : inv s1) by (split; [exact O1|]; rewrite S1, M1; apply I).
  destruct (candidates (g_sel s)) as [|x c] eqn:C.
  - exists s1. split; [reflexivity|]. split; [exact I1|]. rewrite M1, S1. split; [auto|]. now apply candidates_nil.
  - destruct (candidates_sound (g_sel s) x) as [Hx Rx]; [rewrite C; now left|].
    destruct (choose_inv s1 x I1 Hx) as (s2 & E2 & I2 & S2 & Old).
    destruct (IH s2 I2) as (s3 & E3 & I3 & Old3 & Z3).
    { rewrite S2, S1. assert (sel (g_sel s) x = false).
      { destruct (sel (g_sel s) x) eqn:Q; [|reflexivity]. unfold R in Rx. rewrite Q in Rx. lia. }
      pose proof (todo_choose (g_sel s) x Hx H). lia. }
    exists s3. split.
    { unfold choose, bind in E2. unfold bind.
      destruct (add_mpr (n1_neigh x) (n1_link x) (n1_off x) s1) as [[[] s1']|]; [|discriminate].
      rewrite E2. exact E3. }
    split; [exact I3|]. split; [|exact Z3]. intros z Hz. apply Old3, Old. now rewrite M1.
Qed.

(** minima are attained *)
Lemma minY_le : forall y x, In x n1 -> minY y <= D x y.
Proof.
  intros y x Hx. unfold minY.
  enough (G : forall l b, (In x l \/ b <= D x y) ->
    fold_left (fun b z => if D z y <? b then D z y else b) l b <= D x y) by (apply G; auto).
  induction l as [|z l IH]; intros b H; cbn [fold_left]; [destruct H as [[]|H]; exact H|]. apply IH.
  destruct H as [[->|H]|H]; [right; destruct (Z.ltb_spec (D x y) b); lia|now left|].
  right. destruct (Z.ltb_spec (D z y) b); lia.
Qed.
Lemma minY_attained y : minY y < METRIC_INFINITE_PATH -> exists x, In x n1 /\ D x y = minY y.
Proof.
  unfold minY.
  enough (G : forall l b, (forall z, In z l -> In z n1) ->
    fold_left (fun b z => if D z y <? b then D z y else b) l b = b \/
    exists x, In x n1 /\ D x y = fold_left (fun b z => if D z y <? b then D z y else b) l b).
  { intros H. destruct (G n1 METRIC_INFINITE_PATH) as [E|E]; auto. lia. }
  induction l as [|z l IH]; intros b Hl; cbn [fold_left]; [now left|].
  destruct (IH (if D z y <? b then D z y else b)) as [E|E]; [intros; apply Hl; now right| |now right].
  rewrite E. destruct (D z y <? b); [right; exists z; split; [apply Hl; now left|reflexivity]|now left].
Qed.

Lemma all_covered s y : inv s -> (forall x, In x n1 -> R (g_sel s) x = 0) -> In y n2 -> needs y = true ->
  exists z, In z (g_mpr s) /\ D z (ad_addr y) = minY (ad_addr y).
Proof.
  intros I Z Hy Ny. destruct (setN_complete y Hy Ny) as (y' & Hy' & Ea).
  destruct (Hfin y Hy) as (x0 & Hx0 & F0).
  destruct (minY_attained (ad_addr y)) as (x & Hx & Ex).
  { pose proof (minY_le (ad_addr y) x0 Hx0). lia. }
  apply (R_zero _ x Hx) in Z; [|exact Hx]. destruct Z as [Sx|Cx].
  - exists x. split; [now apply I|exact Ex].
  - specialize (Cx y' Hy'). rewrite Ea in Cx. specialize (Cx ltac:(lia)).
    unfold covered in Cx. apply existsb_exists in Cx as (z & Hz & Cz). rewrite Ea in Cz.
    destruct (Z.eqb_spec (D z (ad_addr y)) (minY (ad_addr y))) as [Ez|]; [|discriminate].
    exists z. split; [now apply I|exact Ez].
Qed.

(** * Validation *)
Definition costS (set : list n1_node) (y : Z) : Z :=
  fold_left (fun b x => if D x y <? b then D x y else b) set
    (if DY y >? METRIC_MAX then METRIC_INFINITE_PATH else DY y).
Lemma runs_cost S y set : In y n2 -> (forall x, In x set -> In x n1) ->
  runs S (d_of_y_s m n1 y set) (costS set (ad_addr y)).
Proof.
  intros Hy Hs. unfold d_of_y_s. eapply runs_bind; [apply runs_lift, HDY|].
  unfold costS. apply runs_mfold. intros b x Hx. eapply runs_bind; [apply runs_d; auto|]. apply runs_ret.
Qed.
Lemma cost_fold : forall set y b, fold_left (fun b x => if D x y <? b then D x y else b) set b <= b.
Proof.
  induction set as [|x set IH]; intros y b; cbn [fold_left]; [lia|].
  specialize (IH y (if D x y <? b then D x y else b)). destruct (Z.ltb_spec (D x y) b); lia.
Qed.
Lemma cost_In : forall set y b x, In x set -> fold_left (fun b x => if D x y <? b then D x y else b) set b <= D x y.
Proof.
  induction set as [|z set IH]; intros y b x; [intros []|]. intros [->|H]; cbn [fold_left]; [|auto].
  pose proof (cost_fold set y (if D x y <? b then D x y else b)). destruct (Z.ltb_spec (D x y) b); lia.
Qed.
Lemma cost_is : forall set y b, fold_left (fun b x => if D x y <? b then D x y else b) set b = b \/
  exists x, In x set /\ fold_left (fun b x => if D x y <? b then D x y else b) set b = D x y.
Proof.
  induction set as [|z set IH]; intros y b; cbn [fold_left]; [now left|].
  destruct (IH y (if D z y <? b then D z y else b)) as [E|(x & Hx & E)].
  - rewrite E. destruct (D z y <? b); [right; exists z; split; [now left|reflexivity]|now left].
  - right. exists x. split; [now right|exact E].
Qed.

Lemma DY_needs y : needs y = false -> DY (ad_addr y) <> METRIC_INFINITE /\
  forall x, In x n1 -> DY (ad_addr y) <= D x (ad_addr y).
Proof.
  unfold needs. destruct (Z.eqb_spec (DY (ad_addr y)) METRIC_INFINITE); [discriminate|]. intros H. split; [assumption|].
  intros x Hx. apply Z.nlt_ge. intros L.
  assert (existsb (fun x => D x (ad_addr y) <? DY (ad_addr y)) n1 = true).
  { apply existsb_exists. exists x. split; [exact Hx|]. now apply Z.ltb_lt. }
  congruence.
Qed.

Hypothesis HDYr : forall y, DY y <= METRIC_MAX \/ DY y = METRIC_INFINITE.

Lemma cost_equal s y : inv s -> In y n2 ->
  (forall y, In y n2 -> needs y = true -> exists z, In z (g_mpr s) /\ D z (ad_addr y) = minY (ad_addr y)) ->
  costS (g_mpr s) (ad_addr y) = costS n1 (ad_addr y) /\ costS n1 (ad_addr y) < METRIC_INFINITE_PATH.
Proof.
  intros (O & Sub & _) Hy Cov. unfold costS. set (b := if DY (ad_addr y) >? METRIC_MAX then METRIC_INFINITE_PATH else DY (ad_addr y)).
  destruct (Hfin y Hy) as (x0 & Hx0 & F0).
  split.
  - apply Z.le_antisymm.
    + destruct (cost_is n1 (ad_addr y) b) as [E|(x & Hx & E)]; rewrite E; [apply cost_fold|].
      destruct (needs y) eqn:N.
      * destruct (Cov y Hy N) as (z & Hz & Ez). pose proof (cost_In (g_mpr s) (ad_addr y) b z Hz).
        pose proof (minY_le (ad_addr y) x Hx). lia.
      * destruct (DY_needs y N) as [N1 N2]. specialize (N2 x Hx).
        pose proof (cost_fold (g_mpr s) (ad_addr y) b). enough (b <= D x (ad_addr y)) by lia.
        subst b. destruct (HDYr (ad_addr y)); [|contradiction].
        destruct (Z.gtb_spec (DY (ad_addr y)) METRIC_MAX); lia.
    + destruct (cost_is (g_mpr s) (ad_addr y) b) as [E|(x & Hx & E)]; rewrite E; [apply cost_fold|].
      apply cost_In. auto.
  - pose proof (cost_In n1 (ad_addr y) b x0 Hx0). lia.
Qed.

Lemma validate_ok s : inv s ->
  (forall x, In x n1 -> W x = WILL_ALWAYS -> In x (g_mpr s)) ->
  (forall y, In y n2 -> needs y = true -> exists z, In z (g_mpr s) /\ D z (ad_addr y) = minY (ad_addr y)) ->
  exists s', validate m n1 n2 s = Some (tt, s') /\ g_mpr s' = g_mpr s.
Proof.
  intros I Al Cov. unfold validate, bind at 1.
  assert (V1 : forall l, (forall x, In x l -> In x n1) ->
    mfold (fun (_ : unit) x =>
         w <- lift (m_will m x);
         (fun s => if (w =? WILL_ALWAYS) && negb (existsb (fun z => n1_addr z =? n1_addr x) (g_mpr s))
                   then None else Some (tt, s))) l tt s = Some (tt, s)).
  { induction l as [|x l IH]; intros Hl; [reflexivity|]. cbn [mfold].
    assert (Hx : In x n1) by (apply Hl; now left).
    unfold bind at 1 2. unfold lift. rewrite (HW x Hx).
    destruct (Z.eqb_spec (W x) WILL_ALWAYS) as [Wx|Wx].
    - replace (existsb (fun z => n1_addr z =? n1_addr x) (g_mpr s)) with true.
      + cbn [negb andb]. apply IH. intros; apply Hl; now right.
      + symmetry. apply existsb_exists. exists x. split; [now apply Al|apply Z.eqb_refl].
    - cbn [andb]. apply IH. intros; apply Hl; now right. }
  rewrite V1 by auto.
  enough (G : forall l s1, (forall y, In y l -> In y n2) -> inv s1 -> g_mpr s1 = g_mpr s -> exists s',
    mfold (fun (_ : unit) y =>
    a <- d_of_y_s m n1 y n1;
    b <- (fun s => d_of_y_s m n1 y (g_mpr s) s);
    if negb (b <? METRIC_INFINITE_PATH) then fault
    else if negb (b =? a) then fault
    else ret tt) l tt s1 = Some (tt, s') /\ g_mpr s' = g_mpr s).
  { apply G; auto. }
  induction l as [|y l IH]; intros s1 Hl I1 M1; [exists s1; auto|]. cbn [mfold].
  assert (Hy : In y n2) by (apply Hl; now left).
  destruct (runs_cost (g_sel s1) y n1 Hy (fun x H => H) s1 (proj1 I1) eq_refl) as (s2 & E2 & O2 & S2 & M2).
  assert (I2 : inv s2) by (split; [exact O2|]; rewrite S2, M2; apply I1).
  destruct (runs_cost (g_sel s2) y (g_mpr s2) Hy (proj1 (proj2 I2)) s2 O2 eq_refl) as (s3 & E3 & O3 & S3 & M3).
  assert (I3 : inv s3) by (split; [exact O3|]; rewrite S3, M3; apply I2).
  unfold bind at 1 2 3. rewrite E2, E3.
  destruct (cost_equal s2 y I2 Hy) as [Eq Lt]; [intros; rewrite M2, M1; auto|].
  rewrite Eq. destruct (Z.ltb_spec (costS n1 (ad_addr y)) METRIC_INFINITE_PATH); [|lia]. rewrite Z.eqb_refl.
  cbn [negb ret]. apply IH; auto; [intros; apply Hl; now right|congruence].
Qed.

Definition steps : M (list n1_node * list addr_node) :=
  n <- calculate_n m n1 n2;
  _ <- process_will_always m n1;
  _ <- process_unique_mprs m n1 n;
  _ <- process_remaining (S (length n1)) m n1 n;
  ret (n1, n2).

Lemma selection_ok :
  exists s', (g <- steps; validate m (fst g) (snd g))
      (GState (repeat 0 (Z.to_nat (zlen n1 * zlen n2))) [] [] []) = Some (tt, s') /\
    (forall x, In x (g_mpr s') -> In x n1) /\
    (forall x, In x n1 -> W x = WILL_ALWAYS -> In x (g_mpr s')) /\
    (forall y, In y n2 -> needs y = true -> exists z, In z (g_mpr s') /\ D z (ad_addr y) = minY (ad_addr y)).
Proof.
  set (s0 := GState (repeat 0 (Z.to_nat (zlen n1 * zlen n2))) [] [] []).
  assert (O0 : ok s0).
  { split; [|split].
    - cbn [g_cache s0]. unfold zlen at 1. rewrite repeat_length.
      pose proof (zlen_nonneg n1). pose proof (zlen_nonneg n2). nia.
    - intros x y c _ _ H. left. unfold zget in H. destruct (_ <? _) in H; [discriminate|].
      apply nth_error_In in H. cbn [g_cache s0] in H. now apply repeat_spec in H.
    - intros a c []. }
  destruct (runs_n [] s0 O0 eq_refl) as (s1 & E1 & O1 & S1 & M1).
  assert (I1 : inv s1).
  { split; [exact O1|]. rewrite S1, M1. split; [intros x []|]. intros x _ H. discriminate H. }
  destruct (will_always_inv n1 s1 (fun x H => H) I1) as (s2 & E2 & I2 & Old2 & Al2).
  destruct (unique_inv setN s2) as (s3 & E3 & I3 & Old3); [intros y Hy; now apply setN_In|exact I2|].
  destruct (remaining_inv (S (length n1)) s3 I3) as (s4 & E4 & I4 & Old4 & Z4).
  { unfold todo. enough (forall l, (length (filter (fun x => negb (sel (g_sel s3) x)) l) <= length l)%nat) as L
      by (specialize (L n1); lia).
    induction l as [|x l IH]; cbn [filter length]; [lia|]. destruct (negb _); cbn [length]; lia. }
  assert (Al4 : forall x, In x n1 -> W x = WILL_ALWAYS -> In x (g_mpr s4)) by auto.
  pose proof (fun y => all_covered s4 y I4 Z4) as C4.
  destruct (validate_ok s4 I4 Al4 C4) as (s5 & E5 & M5).
  exists s5. rewrite M5. split; [|split; [apply I4|split; [exact Al4|exact C4]]].
  assert (E : steps s0 = Some ((n1, n2), s4)).
  { unfold steps. unfold bind at 1. rewrite E1. unfold bind at 1. unfold process_will_always. rewrite E2.
    unfold bind at 1. unfold process_unique_mprs. rewrite E3. unfold bind at 1. rewrite E4. reflexivity. }
  unfold bind at 1. rewrite E. exact E5.
Qed.

(** The result in terms of costs. *)
Definition usable (x : n1_node) (y : Z) : Prop := D1 x <= METRIC_MAX /\ D2 x y <= METRIC_MAX.
Lemma selection_covers :
  exists s', (g <- steps; validate m (fst g) (snd g))
      (GState (repeat 0 (Z.to_nat (zlen n1 * zlen n2))) [] [] []) = Some (tt, s') /\
    (forall x, In x (g_mpr s') -> In x n1) /\
    (forall x, In x n1 -> W x = WILL_ALWAYS -> In x (g_mpr s')) /\
    (forall y, In y n2 ->
      (DY (ad_addr y) <> METRIC_INFINITE /\
       forall x, In x n1 -> usable x (ad_addr y) -> DY (ad_addr y) <= D1 x + D2 x (ad_addr y)) \/
      exists z, In z (g_mpr s') /\ usable z (ad_addr y) /\
        forall x, In x n1 -> usable x (ad_addr y) ->
          D1 z + D2 z (ad_addr y) <= D1 x + D2 x (ad_addr y)).
Proof.
  destruct selection_ok as (s' & E & Sub & Al & Cov). exists s'.
  split; [exact E|]. split; [exact Sub|]. split; [exact Al|]. intros y Hy.
  destruct (needs y) eqn:N.
  - right. destruct (Cov y Hy N) as (z & Hz & Ez). exists z. split; [exact Hz|].
    destruct (Hfin y Hy) as (x0 & Hx0 & F0). pose proof (minY_le (ad_addr y) x0 Hx0).
    destruct (D_finite z (ad_addr y) (Sub z Hz) ltac:(lia)) as (A & B & C). split; [split; assumption|].
    intros x Hx [U1 U2]. rewrite <- (D_sum x (ad_addr y)) by auto. pose proof (minY_le (ad_addr y) x Hx). lia.
  - left. destruct (DY_needs y N) as [A B]. split; [exact A|].
    intros x Hx [U1 U2]. rewrite <- (D_sum x (ad_addr y)) by auto. auto.
Qed.
End Sel.

(** * Table offsets *)
Lemma number_n1_length : forall l i, length (number_n1 i l) = length l.
Proof. induction l as [|x l IH]; intros i; cbn [number_n1 length]; [|rewrite IH]; reflexivity. Qed.
Lemma number_n2_length : forall l i k, length (number_n2 i k l) = length l.
Proof. induction l as [|x l IH]; intros i k; cbn [number_n2 length]; [|rewrite IH]; reflexivity. Qed.
Lemma number_n1_nth : forall l i, 0 <= i -> i + zlen l < 4294967296 ->
  forall x, In x (number_n1 i l) -> exists a, nth_error (number_n1 i l) a = Some x /\
    n1_off x = i + Z.of_nat a /\ (a < length l)%nat.
Proof.
  induction l as [|z l IH]; intros i P B x; cbn [number_n1]; [intros []|]. intros [<-|H].
  - exists O. cbn. split; [reflexivity|]. split; [lia|]. lia.
  - unfold zlen in *. cbn [length] in *. rewrite u32_id in * by (unfold is_u32; lia).
    destruct (IH (i + 1) ltac:(lia) ltac:(lia) x H) as (a & E & O & L).
    exists (S a). cbn [nth_error]. split; [exact E|]. split; lia.
Qed.
Lemma number_n2_nth : forall l i k, 0 <= i -> 0 <= k -> i + k * zlen l < 4294967296 ->
  forall y, In y (number_n2 i k l) -> exists b, nth_error (number_n2 i k l) b = Some y /\
    ad_off y = i + k * Z.of_nat b /\ (b < length l)%nat.
Proof.
  induction l as [|z l IH]; intros i k P K B y; cbn [number_n2]; [intros []|]. intros [<-|H].
  - exists O. cbn. split; [reflexivity|]. split; [lia|]. lia.
  - unfold zlen in *. cbn [length] in *. rewrite u32_id in * by (unfold is_u32; nia).
    destruct (IH (i + k) k ltac:(lia) K ltac:(nia) y H) as (b & E & O & L).
    exists (S b). cbn [nth_error]. split; [exact E|]. split; lia.
Qed.
Lemma number_n1_In : forall l i x, In x (number_n1 i l) ->
  exists z, In z l /\ n1_addr x = n1_addr z /\ n1_neigh x = n1_neigh z /\ n1_link x = n1_link z.
Proof.
  induction l as [|z l IH]; intros i x; cbn [number_n1]; [intros []|]. intros [<-|H].
  - exists z. split; [now left|]. auto.
  - destruct (IH _ _ H) as (w & Hw & E). exists w. split; [now right|exact E].
Qed.
Lemma number_n1_all : forall l i z, In z l ->
  exists x, In x (number_n1 i l) /\ n1_addr x = n1_addr z /\ n1_neigh x = n1_neigh z /\ n1_link x = n1_link z.
Proof.
  induction l as [|w l IH]; intros i z; [intros []|]. intros [<-|H]; cbn [number_n1].
  - eexists. split; [now left|]. auto.
  - destruct (IH (u32 (i + 1)) _ H) as (x & Hx & E). exists x. split; [now right|exact E].
Qed.
Lemma number_n2_In : forall l i k y, In y (number_n2 i k l) -> exists z, In z l /\ ad_addr y = ad_addr z.
Proof.
  induction l as [|z l IH]; intros i k y; cbn [number_n2]; [intros []|]. intros [<-|H].
  - exists z. split; [now left|]. auto.
  - destruct (IH _ _ _ H) as (w & Hw & E). exists w. split; [now right|exact E].
Qed.
Lemma number_n2_all : forall l i k z, In z l -> exists y, In y (number_n2 i k l) /\ ad_addr y = ad_addr z.
Proof.
  induction l as [|w l IH]; intros i k z; [intros []|]. intros [<-|H]; cbn [number_n2].
  - eexists. split; [now left|]. auto.
  - destruct (IH (u32 (i + k)) k _ H) as (x & Hx & E). exists x. split; [now right|exact E].
Qed.
Lemma number_n1_asc : forall l i, ascending n1_addr l -> ascending n1_addr (number_n1 i l).
Proof.
  induction l as [|w l IH]; intros i; cbn [number_n1]; [auto|]. intros [H1 H2]. split; [|auto].
  intros y Hy. apply number_n1_In in Hy as (z & Hz & -> & _). cbn [n1_addr]. auto.
Qed.

Lemma cells_ok (n1 : list n1_node) (n2 : list addr_node) : zlen n1 * zlen n2 < 4294967296 ->
  let x1 := number_n1 0 n1 in let x2 := number_n2 0 (zlen n1) n2 in
  (forall x y, In x x1 -> In y x2 -> 0 <= n1_off x + ad_off y < zlen n1 * zlen n2) /\
  (forall x y x' y', In x x1 -> In y x2 -> In x' x1 -> In y' x2 ->
     n1_off x + ad_off y = n1_off x' + ad_off y' -> x = x' /\ y = y').
Proof.
  intros B x1 x2.
  assert (N : forall x y, In x x1 -> In y x2 -> exists a b, nth_error x1 a = Some x /\ nth_error x2 b = Some y /\
     n1_off x = Z.of_nat a /\ ad_off y = zlen n1 * Z.of_nat b /\ Z.of_nat a < zlen n1 /\ Z.of_nat b < zlen n2).
  { intros x y Hx Hy.
    assert (0 < zlen n2).
    { unfold x2 in Hy. destruct n2; [destruct Hy|unfold zlen; cbn [length]; lia]. }
    pose proof (zlen_nonneg n1).
    destruct (number_n1_nth n1 0 ltac:(lia) ltac:(nia) x Hx) as (a & Ea & Oa & La).
    destruct (number_n2_nth n2 0 (zlen n1) ltac:(lia) ltac:(lia) ltac:(lia) y Hy) as (b & Eb & Ob & Lb).
    exists a, b. unfold zlen in *. repeat split; auto; lia. }
  split.
  - intros x y Hx Hy. destruct (N x y Hx Hy) as (a & b & _ & _ & -> & -> & La & Lb).
    pose proof (zlen_nonneg n1). nia.
  - intros x y x' y' Hx Hy Hx' Hy' E.
    destruct (N x y Hx Hy) as (a & b & Ea & Eb & Oa & Ob & La & Lb).
    destruct (N x' y' Hx' Hy') as (a' & b' & Ea' & Eb' & Oa' & Ob' & La' & Lb').
    rewrite Oa, Ob, Oa', Ob' in E.
    assert (Z.of_nat b = Z.of_nat b').
    { pose proof (zlen_nonneg n1). destruct (Z.lt_trichotomy (Z.of_nat b) (Z.of_nat b')) as [T|[T|T]]; [exfalso; nia|exact T|exfalso; nia]. }
    assert (b = b') by lia. subst b'. assert (a = a') by lia. subst a'. split; congruence.
Qed.
