(** Theorems about neighbor probing (ProbeModel.v). *)
From Verif Require Import Base BufLemmas SplitLemmas WriterModel ProbeModel.

(** ** Specification *)

(** an interface is to be probed: it says so, or it says nothing and is a DLEP interface
    (when the option allows) or wireless *)
Definition wanted (dlep : bool) (n : net) : Prop :=
  n_flag n = Some true \/ (n_flag n = None /\ n_dlep n = true /\ dlep = true) \/ (n_flag n = None /\ n_dlep n = false /\ n_wireless n = true).
(** the link may be probed: symmetric, on such an interface, with the data a probe
    shall improve and the counter of frames *)
Definition probed_kind (dlep : bool) (e : lenv) (tx : Z) : Prop :=
  (exists n, e_net e = Some n /\ wanted dlep n) /\ e_sym e = true /\ e_rx e = true /\ e_tx e = Some tx.
(** and it had no traffic since the last look *)
Definition idle (dlep : bool) (k : link) : Prop := probed_kind dlep (k_env k) (x_tx (k_ext k)).

Lemma check_ok : forall dlep n, check_if_type dlep n = true <-> wanted dlep n.
Proof.
  intros dlep n. unfold check_if_type, wanted. destruct (n_flag n) as [[|]|]; [|destruct (n_dlep n)|destruct (n_dlep n)]; split; intro H; auto.
  all: repeat match goal with H : _ \/ _ |- _ => destruct H | H : _ /\ _ |- _ => destruct H end; try discriminate; auto.
Qed.
Lemma looked_ok : forall dlep e tx, looked_at dlep e = Some tx <-> probed_kind dlep e tx.
Proof.
  intros dlep e tx. unfold looked_at, probed_kind. destruct (e_net e) as [n|]; [|split; [discriminate | intros ((n & E & _) & _); discriminate]].
  split.
  - destruct (check_if_type dlep n) eqn:C, (e_sym e), (e_rx e); cbn [andb]; intro H; try discriminate. apply check_ok in C. split; [exists n; auto|auto].
  - intros ((m & E & W) & -> & -> & ->). injection E as <-. apply check_ok in W. rewrite W. reflexivity.
Qed.

(** well-formed worlds: numbers of links are unique, times in the past *)
Definition wf (w : world) : Prop :=
  NoDup (map k_id (w_links w)) /\ 0 <= w_now w < 2 ^ 64 /\ forall k, In k (w_links w) -> 0 <= x_check (k_ext k) <= w_now w.

Definition touch (dlep : bool) (now : Z) (k : link) : link :=
  match looked_at dlep (k_env k) with
  | Some tx => if x_tx (k_ext k) =? tx then k else with_ext k {| x_check := now; x_tx := tx; x_target := x_target (k_ext k) |}
  | None => k
  end.
Definition cand (dlep : bool) (k : link) : bool := match looked_at dlep (k_env k) with Some tx => x_tx (k_ext k) =? tx | None => false end.
Lemma cand_ok : forall dlep k, cand dlep k = true <-> idle dlep k.
Proof.
  intros dlep k. unfold cand, idle. split.
  - destruct (looked_at dlep (k_env k)) as [tx|] eqn:L; [|discriminate]. intro E. apply Z.eqb_eq in E. rewrite E. apply looked_ok. exact L.
  - intro H. apply looked_ok in H. rewrite H. apply Z.eqb_refl.
Qed.

(** the scan finds one of the longest waiting links *)
Definition pts (now : Z) (k : link) : Z := u64 (now - x_check (k_ext k)).
Definition bp (b : option (Z * Z)) : Z := match b with Some (p, _) => p | None => 0 end.
Lemma scan_spec : forall dlep now l best l' b, (forall q j, best = Some (q, j) -> 0 < q) -> scan dlep now l best = (l', b) ->
  l' = map (touch dlep now) l /\ (forall k, In k l -> cand dlep k = true -> pts now k <= bp b) /\ bp best <= bp b /\
  (forall p i, b = Some (p, i) -> 0 < p /\ (best = Some (p, i) \/ exists k, In k l /\ cand dlep k = true /\ k_id k = i /\ pts now k = p)).
Proof.
  intros dlep now l; induction l as [|k r IH]; intros best l' b P H; cbn [scan] in H.
  - injection H as <- <-. split; [reflexivity|]. split; [intros k []|]. split; [lia|]. intros p i E. split; [eapply P; eauto | auto].
  - destruct (visit dlep now k best) as [k1 b1] eqn:V. destruct (scan dlep now r b1) as [r1 b2] eqn:R. injection H as <- <-.
    assert (V1 : k1 = touch dlep now k /\ bp best <= bp b1 /\ (cand dlep k = true -> pts now k <= bp b1) /\
        (b1 = best \/ (cand dlep k = true /\ b1 = Some (pts now k, k_id k) /\ bp best < pts now k))).
    { unfold visit in V. unfold touch, cand. destruct (looked_at dlep (k_env k)) as [tx|]; [|injection V as <- <-; repeat split; auto; [lia|discriminate]].
      destruct (x_tx (k_ext k) =? tx); cbn [negb] in V; [|injection V as <- <-; repeat split; auto; [lia|discriminate]].
      injection V as <- <-. split; [reflexivity|]. change (match best with Some (p, _) => p | None => 0 end) with (bp best). fold (pts now k).
      destruct (Z.ltb_spec (bp best) (pts now k)); cbn [bp]; repeat split; auto; lia. }
    destruct V1 as (-> & V1 & V2 & V3).
    assert (P1 : forall q j, b1 = Some (q, j) -> 0 < q).
    { intros q j E. destruct V3 as [->|(_ & -> & L)]; [eapply P; eauto|]. injection E as <- <-. destruct best as [[q' j']|]; cbn [bp] in L; [specialize (P _ _ eq_refl)|]; lia. }
    destruct (IH _ _ _ P1 R) as (-> & K1 & K2 & K3). split; [reflexivity|]. split; [|split; [lia|]].
    + intros m [<-|I1] C; [specialize (V2 C); lia | exact (K1 m I1 C)].
    + intros p i E. destruct (K3 p i E) as (PP & [Q|(m & I1 & Q)]); (split; [exact PP|]).
      * destruct V3 as [->|(C & EB & _)]; [auto|]. rewrite EB in Q. injection Q as <- <-. right. exists k. split; [left; reflexivity|auto].
      * right. exists m. split; [right; exact I1|exact Q].
Qed.
Lemma choose_spec : forall now i l l' t, choose now i l = (l', t) ->
  (t = None \/ exists k, In k l /\ k_id k = i /\ t = snd (chosen now k)) /\
  map k_id l' = map k_id l /\ (forall k', In k' l' -> In k' l \/ exists k, In k l /\ k_id k = i /\ k' = fst (chosen now k)) /\
  (NoDup (map k_id l) -> forall k, In k l -> if k_id k =? i then In (fst (chosen now k)) l' /\ t = snd (chosen now k) else In k l').
Proof.
  intros now i l; induction l as [|k r IH]; intros l' t H; cbn [choose] in H.
  - injection H as <- <-. repeat split; auto. intros _ k [].
  - destruct (Z.eqb_spec (k_id k) i) as [E|E].
    + destruct (chosen now k) as [k1 t1] eqn:C. injection H as <- <-.
      assert (ID : k_id k1 = k_id k) by (unfold chosen in C; injection C as <- <-; reflexivity).
      split; [right; exists k; rewrite C; repeat split; auto; left; reflexivity|]. split; [cbn [map]; rewrite ID; reflexivity|]. split.
      * intros k' [<-|I1]; [right; exists k; rewrite C; repeat split; auto; left; reflexivity | left; right; exact I1].
      * intros ND m [<-|I1]; [rewrite E, Z.eqb_refl, C; split; [left; reflexivity|reflexivity]|].
        cbn [map] in ND. apply NoDup_cons_iff in ND. destruct ND as [ND _]. destruct (Z.eqb_spec (k_id m) i) as [E2|_]; [exfalso; apply ND; rewrite E, <- E2; apply in_map; exact I1 | right; exact I1].
    + destruct (choose now i r) as [r1 t1] eqn:R. injection H as <- <-. destruct (IH _ _ eq_refl) as (A & B & C & D). split; [|split; [|split]].
      * destruct A as [A|(m & I1 & A)]; [auto|right; exists m; split; [right; exact I1|exact A]].
      * cbn [map]. rewrite B. reflexivity.
      * intros k' [<-|I1]; [left; left; reflexivity|]. destruct (C k' I1) as [K|(m & I2 & K)]; [left; right; exact K | right; exists m; split; [right; exact I2|exact K]].
      * intros ND m [<-|I1]; [apply Z.eqb_neq in E; rewrite E; left; reflexivity|]. cbn [map] in ND. apply NoDup_cons_iff in ND. destruct ND as [_ ND]. specialize (D ND m I1).
        destruct (k_id m =? i); [destruct D; split; [right; assumption|assumption] | right; exact D].
Qed.
Lemma touch_id : forall dlep now k, k_id (touch dlep now k) = k_id k /\ k_env (touch dlep now k) = k_env k /\ x_target (k_ext (touch dlep now k)) = x_target (k_ext k).
Proof. intros dlep now k. unfold touch. destruct (looked_at dlep (k_env k)); [destruct (_ =? _)|]; auto. Qed.
Lemma touch_cand : forall dlep now k, cand dlep k = true -> touch dlep now k = k.
Proof. intros dlep now k. unfold touch, cand. destruct (looked_at dlep (k_env k)); [intros ->; reflexivity | discriminate]. Qed.
Lemma unique : forall (l : list link) a b, NoDup (map k_id l) -> In a l -> In b l -> k_id a = k_id b -> a = b.
Proof.
  intros l; induction l as [|k r IH]; intros a b ND IA IB E; [destruct IA|]. cbn [map] in ND. apply NoDup_cons_iff in ND. destruct ND as [N1 ND].
  destruct IA as [->|IA], IB as [->|IB]; auto; [exfalso; apply N1; rewrite E; apply in_map; exact IB | exfalso; apply N1; rewrite <- E; apply in_map; exact IA].
Qed.

(** the whole of a tick: nothing, or the choice of one of the longest waiting links *)
Lemma tick_spec : forall dlep now l l' p, NoDup (map k_id l) -> tick dlep now l = (l', p) -> map k_id l' = map k_id l /\
  ((l' = map (touch dlep now) l /\ p = None /\ (forall k, In k l -> cand dlep k = true -> pts now k <= 0)) \/
   exists k, In k l /\ cand dlep k = true /\ 0 < pts now k /\ (forall m, In m l -> cand dlep m = true -> pts now m <= pts now k) /\
     In (fst (chosen now k)) l' /\ p = match snd (chosen now k) with Some t => Some (k_id k, t) | None => None end /\
     (forall m, In m l -> k_id m <> k_id k -> In (touch dlep now m) l') /\ (forall m', In m' l' -> m' = fst (chosen now k) \/ exists m, In m l /\ k_id m <> k_id k /\ m' = touch dlep now m)).
Proof.
  intros dlep now l l' p ND H. unfold tick in H. destruct (scan dlep now l None) as [l1 b] eqn:S1. destruct (scan_spec dlep now l None l1 b ltac:(intros; discriminate) S1) as (E1 & A & _ & B).
  assert (M1 : map k_id l1 = map k_id l) by (subst l1; rewrite map_map; apply map_ext; intro; apply touch_id).
  destruct b as [[q i]|]; [|injection H as <- <-; split; [exact M1|left; auto]].
  destruct (B q i eq_refl) as (QP & [C|(k & I1 & C & ID & PT)]); [discriminate|]. destruct (choose now i l1) as [l2 t] eqn:CH. destruct (choose_spec _ _ _ _ _ CH) as (_ & M2 & D1 & D2).
  rewrite M1 in M2. assert (ND1 : NoDup (map k_id l1)) by (rewrite M1; exact ND). specialize (D2 ND1).
  assert (IK : In k l1) by (subst l1; rewrite <- (touch_cand dlep now k C); apply in_map; exact I1).
  pose proof (D2 k IK) as DK. rewrite ID, Z.eqb_refl in DK. destruct DK as [DK1 DK2]. cbn [bp] in A.
  assert (HH : l' = l2 /\ p = match t with Some t => Some (i, t) | None => None end) by (destruct t; injection H as <- <-; auto). destruct HH as [-> ->].
  split; [exact M2|]. right. exists k. split; [exact I1|]. split; [exact C|]. split; [lia|]. split; [intros m Im Cm; rewrite PT; exact (A m Im Cm)|]. split; [exact DK1|]. split; [rewrite DK2, ID; reflexivity|]. split.
  - intros m Im NE. assert (IT : In (touch dlep now m) l1) by (subst l1; apply in_map; exact Im). specialize (D2 _ IT). destruct (touch_id dlep now m) as (TI & _). rewrite TI in D2. rewrite ID in NE. apply Z.eqb_neq in NE. rewrite NE in D2. exact D2.
  - intros m' Im. assert (XID : k_id m' = i \/ k_id m' <> i) by lia.
    destruct (D1 m' Im) as [K|(m & K1 & K2 & K3)].
    + assert (K0 := K). subst l1. apply in_map_iff in K. destruct K as (m & <- & Im2). destruct (touch_id dlep now m) as (TI & _). rewrite TI in XID. destruct XID as [XID|XID]; [|right; exists m; rewrite ID; auto].
      assert (m = k) as -> by (apply (unique l m k ND Im2 I1); congruence). rewrite (touch_cand _ _ _ C) in *. left.
      assert (NL : NoDup (map k_id l2)) by (rewrite M2; exact ND). eapply unique; [exact NL|exact Im|exact DK1|]. reflexivity.
    + left. assert (m = k) as -> by (eapply unique; [exact ND1|exact K1|exact IK|congruence]). exact K3.
Qed.
Lemma step_wf : forall dlep o w w' p, wf w -> w_now w' < 2 ^ 64 -> step dlep o w = (w', p) -> wf w'.
Proof.
  intros dlep o [now l] w' p (ND & R & B) L H. cbn [w_now w_links] in *. destruct o; cbn [step w_now w_links] in H.
  - destruct (tick dlep now l) as [l' q] eqn:T. injection H as <- <-. destruct (tick_spec _ _ _ _ _ ND T) as (M & K). split; [cbn [w_links]; rewrite M; exact ND|]. split; [exact R|]. cbn [w_links w_now].
    assert (TB : forall m, In m l -> 0 <= x_check (k_ext (touch dlep now m)) <= now).
    { intros m Im. specialize (B m Im). unfold touch. destruct (looked_at dlep (k_env m)); [destruct (_ =? _)|]; cbn [with_ext k_ext x_check]; lia. }
    intros m' Im. destruct K as [(-> & _)|(k & I1 & _ & _ & _ & _ & _ & _ & K)]; [apply in_map_iff in Im; destruct Im as (m & <- & Im); exact (TB m Im)|].
    destruct (K m' Im) as [->|(m & Im2 & _ & ->)]; [cbn [chosen fst with_ext k_ext x_check]; lia | exact (TB m Im2)].
  - injection H as <- <-. cbn [w_now] in L. split; [exact ND|]. cbn [w_now w_links]. split; [lia|]. intros k I1. specialize (B k I1). lia.
  - injection H as <- <-. split; [|split; [exact R|]]; cbn [w_links w_now].
    + rewrite map_map. erewrite map_ext; [exact ND|]. intro k. destruct (Z.eqb_spec (k_id k) i); [cbn; auto|reflexivity].
    + intros k I1. apply in_map_iff in I1. destruct I1 as (m & <- & Im). specialize (B m Im). destruct (k_id m =? i); exact B.
  - injection H as <- <-. destruct (existsb (fun k => k_id k =? i) l) eqn:EX; [split; auto|]. split; [|split; [exact R|]]; cbn [w_links w_now].
    + rewrite map_app. cbn [map k_id]. apply NoDup_rev in ND. rewrite <- (rev_involutive (map k_id l ++ [i])). apply NoDup_rev. rewrite rev_app_distr. cbn [rev app]. constructor; [|exact ND].
      intro I1. apply in_rev in I1. apply in_map_iff in I1. destruct I1 as (k & <- & I1). apply Bool.not_true_iff_false in EX. apply EX. apply existsb_exists. exists k. split; [exact I1|apply Z.eqb_refl].
    + intros k I1. apply in_app_iff in I1. destruct I1 as [I1|[<-|[]]]; [exact (B k I1)|]. cbn. lia.
  - injection H as <- <-. split; [|split; [exact R|]]; cbn [w_links w_now].
    + clear - ND. induction l as [|k r IH]; cbn [filter map]; [constructor|]. cbn [map] in ND. apply NoDup_cons_iff in ND. destruct ND as [N1 ND]. destruct (negb (k_id k =? i)); [|exact (IH ND)]. cbn [map]. constructor; [|exact (IH ND)].
      intro I1. apply N1. apply in_map_iff in I1. destruct I1 as (m & E & I1). apply filter_In in I1. rewrite <- E. apply in_map. tauto.
    + intros k I1. apply filter_In in I1. apply B. tauto.
Qed.
Lemma step_now : forall dlep o w w' p, step dlep o w = (w', p) -> w_now w <= w_now w'.
Proof. intros dlep o [now l] w' p H. destruct o; cbn [step w_now w_links] in H; [destruct (tick dlep now l)| | | |]; injection H as <- <-; cbn [w_now]; lia. Qed.
Lemma run_now : forall dlep os w w' t, run dlep os w = (w', t) -> w_now w <= w_now w'.
Proof.
  intros dlep os; induction os as [|o r IH]; intros w w' t H; cbn [run] in H; [injection H as <- <-; lia|].
  destruct (step dlep o w) as [w1 p] eqn:S1. destruct (run dlep r w1) as [w2 t2] eqn:R. injection H as <- <-. pose proof (step_now _ _ _ _ _ S1). pose proof (IH _ _ _ R). lia.
Qed.
Lemma run_wf : forall dlep os w w' t, wf w -> w_now w' < 2 ^ 64 -> run dlep os w = (w', t) -> wf w'.
Proof.
  intros dlep os; induction os as [|o r IH]; intros w w' t W L H; cbn [run] in H; [injection H as <- <-; exact W|].
  destruct (step dlep o w) as [w1 p] eqn:S1. destruct (run dlep r w1) as [w2 t2] eqn:R. injection H as <- <-. pose proof (run_now _ _ _ _ _ R). eapply IH; [|exact L|exact R]. eapply step_wf; [exact W| |exact S1]. lia.
Qed.
Lemma init_wf : wf init.
Proof. split; [constructor|]. split; [cbn; lia|intros k []]. Qed.
Lemma pts_val : forall w k, wf w -> In k (w_links w) -> pts (w_now w) k = w_now w - x_check (k_ext k).
Proof. intros w k (_ & R & B) I1. specialize (B k I1). unfold pts, u64. apply Z.mod_small. lia. Qed.

(** * C144: who is probed *)

(** a probe goes to a link that may be probed and had no traffic since the last look, and
    to one that waits longest; (the clock, in milliseconds, does not reach 2^64) *)
Theorem C144_whom : forall dlep os w t w' i dst, run dlep os init = (w, t) -> w_now w < 2 ^ 64 -> step dlep Tick w = (w', Some (i, dst)) ->
  exists k, In k (w_links w) /\ k_id k = i /\ idle dlep k /\ x_check (k_ext k) < w_now w /\
    (forall m, In m (w_links w) -> idle dlep m -> x_check (k_ext k) <= x_check (k_ext m)).
Proof.
  intros dlep os w t w' i dst R L H. pose proof (run_wf _ _ _ _ _ init_wf L R) as W. cbn [step] in H. destruct (tick dlep (w_now w) (w_links w)) as [l' p] eqn:T. injection H as <- ->.
  destruct (tick_spec _ _ _ _ _ (proj1 W) T) as (_ & [(_ & E & _)|(k & I1 & C & P & A & _ & E & _)]); [discriminate|].
  exists k. split; [exact I1|]. destruct (snd (chosen (w_now w) k)); [|discriminate]. injection E as -> ->. split; [reflexivity|]. split; [apply cand_ok; exact C|].
  rewrite (pts_val w k W I1) in *. split; [lia|]. intros m Im Cm. apply cand_ok in Cm. specialize (A m Im Cm). rewrite (pts_val w m W Im) in A. lia.
Qed.
(** no probe is left out: when a link waits and nothing is probed, the longest waiting
    link has no address *)
Theorem C144_some : forall dlep os w t w', run dlep os init = (w, t) -> w_now w < 2 ^ 64 -> step dlep Tick w = (w', None) ->
  (forall k, In k (w_links w) -> idle dlep k -> x_check (k_ext k) = w_now w) \/ (exists k, In k (w_links w) /\ idle dlep k /\ e_addr (k_env k) = None /\ x_target (k_ext k) = None /\ forall m, In m (w_links w) -> idle dlep m -> x_check (k_ext k) <= x_check (k_ext m)).
Proof.
  intros dlep os w t w' R L H. pose proof (run_wf _ _ _ _ _ init_wf L R) as W. cbn [step] in H. destruct (tick dlep (w_now w) (w_links w)) as [l' p] eqn:T. injection H as <- ->.
  destruct (tick_spec _ _ _ _ _ (proj1 W) T) as (_ & [(_ & _ & A)|(k & I1 & C & P & A & _ & E & _)]).
  - left. intros k I1 C. apply cand_ok in C. specialize (A k I1 C). rewrite (pts_val w k W I1) in A. destruct W as (_ & _ & B). specialize (B k I1). lia.
  - right. exists k. split; [exact I1|]. split; [apply cand_ok; exact C|]. unfold chosen in E. cbn [snd] in E. destruct (x_target (k_ext k)); [discriminate|]. destruct (e_addr (k_env k)); [discriminate|]. split; [reflexivity|]. split; [reflexivity|].
    intros m Im Cm. apply cand_ok in Cm. specialize (A m Im Cm). rewrite (pts_val w k W I1), (pts_val w m W Im) in A. lia.
Qed.
(** the operations between two ticks; they leave the extension of a link alone *)
Definition no_tick (o : op) : Prop := o <> Tick.
Lemma quiet_keeps : forall dlep qs w w' t k, Forall no_tick qs -> ~ In (Remove (k_id k)) qs -> run dlep qs w = (w', t) -> In k (w_links w) -> exists k', In k' (w_links w') /\ k_id k' = k_id k /\ k_ext k' = k_ext k.
Proof.
  intros dlep qs; induction qs as [|o r IH]; intros w w' t k Q NR H I1; cbn [run] in H; [injection H as <- <-; exists k; auto|].
  destruct (step dlep o w) as [w1 p] eqn:S1. destruct (run dlep r w1) as [w2 t2] eqn:R. injection H as <- <-.
  assert (exists k1, In k1 (w_links w1) /\ k_id k1 = k_id k /\ k_ext k1 = k_ext k) as (k1 & I2 & E1 & E2).
  { destruct o; cbn [step] in S1; [exfalso; apply (Forall_inv Q); reflexivity| | | |]; injection S1 as <- <-; cbn [w_links].
    - exists k. auto.
    - exists (if k_id k =? i then {| k_id := i; k_env := e; k_ext := k_ext k |} else k). split; [apply in_map_iff; exists k; auto|]. destruct (Z.eqb_spec (k_id k) i); cbn; auto.
    - exists k. split; [|auto]. destruct (existsb _ _); [exact I1|]. apply in_app_iff. auto.
    - exists k. split; [|auto]. apply filter_In. split; [exact I1|]. apply negb_true_iff. apply Z.eqb_neq. intro E. apply NR. left. congruence. }
  destruct (IH w1 w2 t2 k1) as (k' & I3 & E3 & E4); [exact (Forall_inv_tail Q) | rewrite E1; intro K; apply NR; right; exact K | exact R | exact I2|].
  exists k'. rewrite <- E1, <- E2. auto.
Qed.
Lemma tick_counter : forall dlep now l l' p k tx, NoDup (map k_id l) -> tick dlep now l = (l', p) -> In k l -> probed_kind dlep (k_env k) tx -> exists k', In k' l' /\ k_id k' = k_id k /\ x_tx (k_ext k') = tx.
Proof.
  intros dlep now l l' p k tx ND T I1 PK. apply looked_ok in PK.
  assert (TT : x_tx (k_ext (touch dlep now k)) = tx) by (unfold touch; rewrite PK; destruct (Z.eqb_spec (x_tx (k_ext k)) tx); [assumption|reflexivity]).
  destruct (touch_id dlep now k) as (TI & _). destruct (tick_spec _ _ _ _ _ ND T) as (_ & [(-> & _)|(m & I2 & C & _ & _ & I3 & _ & A & _)]); [exists (touch dlep now k); split; [apply in_map; exact I1|auto]|].
  destruct (Z.eq_dec (k_id k) (k_id m)) as [E|E]; [|exists (touch dlep now k); auto]. assert (k = m) as -> by (apply (unique l); auto).
  exists (fst (chosen now m)). split; [exact I3|]. rewrite (touch_cand _ _ _ C) in TT. cbn. auto.
Qed.
(** a link with traffic between two ticks is not probed at the second *)
Theorem C144_traffic : forall dlep os w t w1 p1 qs w2 t2 w3 p k tx k2 tx2, run dlep os init = (w, t) -> step dlep Tick w = (w1, p1) -> In k (w_links w) -> probed_kind dlep (k_env k) tx ->
  Forall no_tick qs -> ~ In (Remove (k_id k)) qs -> run dlep qs w1 = (w2, t2) -> w_now w2 < 2 ^ 64 -> In k2 (w_links w2) -> k_id k2 = k_id k -> probed_kind dlep (k_env k2) tx2 -> tx2 <> tx ->
  step dlep Tick w2 = (w3, p) -> forall dst, p <> Some (k_id k, dst).
Proof.
  intros dlep os w t w1 p1 qs w2 t2 w3 p k tx k2 tx2 R S1 I1 PK Q NR R2 L I2 E2 PK2 NE S2 dst ->.
  pose proof (step_now _ _ _ _ _ S1). pose proof (run_now _ _ _ _ _ R2). pose proof (run_wf dlep os init w t init_wf ltac:(lia) R) as W. pose proof (step_wf dlep Tick w w1 p1 W ltac:(lia) S1) as W1. pose proof (run_wf _ _ _ _ _ W1 L R2) as W2.
  cbn [step] in S1. destruct (tick dlep (w_now w) (w_links w)) as [l' q] eqn:T. injection S1 as <- <-. destruct (tick_counter _ _ _ _ _ _ _ (proj1 W) T I1 PK) as (k1 & K1 & K2 & K3).
  destruct (quiet_keeps dlep qs _ w2 t2 k1 Q ltac:(rewrite K2; exact NR) R2 K1) as (k' & K4 & K5 & K6). assert (k' = k2) as -> by (apply (unique (w_links w2)); [exact (proj1 W2)|assumption|assumption|congruence]).
  cbn [step] in S2. destruct (tick dlep (w_now w2) (w_links w2)) as [l2 q2] eqn:T2. injection S2 as <- ->.
  destruct (tick_spec _ _ _ _ _ (proj1 W2) T2) as (_ & [(_ & E & _)|(m & I3 & C & _ & _ & _ & E & _)]); [discriminate|]. destruct (snd (chosen (w_now w2) m)); [|discriminate]. injection E as E _.
  assert (m = k2) as -> by (apply (unique (w_links w2)); [exact (proj1 W2)|assumption|assumption|congruence]). apply cand_ok in C. unfold idle in C. rewrite K6, K3 in C. destruct C as (_ & _ & _ & C). destruct PK2 as (_ & _ & _ & PK2). congruence.
Qed.

(** * C145: every waiting link gets its turn *)

Definition ticks (os : list op) : Z := zlen (filter (fun o => match o with Tick => true | _ => false end) os).
(** link [i] stays as it is for probing: no traffic, there is an address; no link is added *)
Definition steady (dlep : bool) (i tx : Z) (o : op) : Prop :=
  match o with
  | Add _ _ => False
  | Remove j => j <> i
  | Change j e => j = i -> probed_kind dlep e tx /\ e_addr e <> None
  | _ => True
  end.
Definition older (i c : Z) (l : list link) : list Z := map k_id (filter (fun m => negb (k_id m =? i) && (x_check (k_ext m) <=? c)) l).
Lemma older_in : forall i c l j, In j (older i c l) <-> exists m, In m l /\ k_id m = j /\ j <> i /\ x_check (k_ext m) <= c.
Proof.
  intros i c l j. unfold older. rewrite in_map_iff. split; intros (m & H).
  - destruct H as (E & H). apply filter_In in H. destruct H as [I1 H]. exists m. repeat split; auto; lia.
  - destruct H as (I1 & E & N & C). exists m. split; [exact E|]. apply filter_In. split; [exact I1|]. lia.
Qed.
Lemma older_nodup : forall i c l, NoDup (map k_id l) -> NoDup (older i c l).
Proof.
  intros i c l; induction l as [|k r IH]; intro ND; unfold older in *; cbn [filter map]; [constructor|]. cbn [map] in ND. apply NoDup_cons_iff in ND. destruct ND as [N1 ND].
  destruct (negb (k_id k =? i) && (x_check (k_ext k) <=? c)); [|exact (IH ND)]. cbn [map]. constructor; [|exact (IH ND)]. intro I1. apply N1. apply in_map_iff in I1. destruct I1 as (m & E & I1). apply filter_In in I1. rewrite <- E. apply in_map. tauto.
Qed.
Lemma fair : forall dlep i tx c os w w' t k, wf w -> w_now w' < 2 ^ 64 -> Forall (steady dlep i tx) os -> run dlep os w = (w', t) ->
  In k (w_links w) -> k_id k = i -> idle dlep k -> x_tx (k_ext k) = tx -> x_check (k_ext k) = c -> (x_target (k_ext k) <> None \/ e_addr (k_env k) <> None) -> c < w_now w ->
  (forall dst, ~ In (Tick, Some (i, dst)) t) -> ticks os <= zlen (older i c (w_links w)).
Proof.
  intros dlep i tx c os; induction os as [|o r IH]; intros w w' t k W L ST H I1 ID IK TX CK AD LT NP; cbn [run] in H; [unfold ticks; cbn [filter]; change (zlen (@nil op)) with 0; apply zlen_nonneg|].
  destruct (step dlep o w) as [w1 p] eqn:S1. destruct (run dlep r w1) as [w2 t2] eqn:R. injection H as <- <-.
  pose proof (run_now _ _ _ _ _ R) as L1. pose proof (step_now _ _ _ _ _ S1) as L0. pose proof (step_wf dlep o w w1 p W ltac:(lia) S1) as W1.
  pose proof (Forall_inv ST) as SO. pose proof (Forall_inv_tail ST) as SR.
  assert (NP1 : forall dst, ~ In (Tick, Some (i, dst)) t2) by (intros dst K; apply (NP dst); right; exact K).
  assert (INC : forall l, NoDup l -> incl l (older i c (w_links w)) -> zlen l <= zlen (older i c (w_links w))) by (intros l N1 N2; unfold zlen; pose proof (NoDup_incl_length N1 N2); lia).
  assert (GO : forall k1, In k1 (w_links w1) -> k_id k1 = i -> idle dlep k1 -> x_tx (k_ext k1) = tx -> x_check (k_ext k1) = c -> (x_target (k_ext k1) <> None \/ e_addr (k_env k1) <> None) -> ticks r <= zlen (older i c (w_links w1))).
  { intros k1 J1 J2 J3 J4 J5 J6. refine (IH w1 w2 t2 k1 W1 L SR R J1 J2 J3 J4 J5 J6 _ NP1). lia. }
  destruct o.
  - (* Tick *) cbn [step] in S1. destruct (tick dlep (w_now w) (w_links w)) as [l' q] eqn:T. injection S1 as <- <-. cbn [w_links] in *. pose proof (proj1 W) as ND.
    destruct (tick_spec _ _ _ _ _ ND T) as (M & K). pose proof (proj2 (cand_ok dlep k) IK) as CA. pose proof (pts_val w k W I1) as PV.
    destruct K as [(_ & _ & K)|(m & I2 & CM & PM & K1 & K2 & K3 & K4 & K5)]; [specialize (K k I1 CA); lia|].
    destruct (Z.eq_dec (k_id m) i) as [EM|NM].
    + exfalso. assert (m = k) as -> by (apply (unique (w_links w)); auto; congruence). unfold chosen in K3. cbn [snd] in K3.
      assert (X : exists dst, q = Some (i, dst)). { rewrite K3, ID. destruct (x_target (k_ext k)); [eauto|]. destruct (e_addr (k_env k)); [eauto|]. destruct AD as [AD|AD]; exfalso; apply AD; reflexivity. }
      destruct X as (dst & ->). apply (NP dst). left. reflexivity.
    + specialize (K4 k I1 ltac:(congruence)). rewrite (touch_cand _ _ _ CA) in K4. specialize (GO k K4 ID IK TX CK AD).
      assert (CMO : In (k_id m) (older i c (w_links w))). { apply older_in. exists m. repeat split; auto. specialize (K1 k I1 CA). rewrite PV, (pts_val w m W I2) in K1. lia. }
      assert (NIN : ~ In (k_id m) (older i c l')).
      { intro X. apply older_in in X. destruct X as (m' & X1 & X2 & X3 & X4). destruct (K5 m' X1) as [->|(m2 & Y1 & Y2 & ->)]; [cbn [chosen fst with_ext k_ext x_check] in X4; lia|]. destruct (touch_id dlep (w_now w) m2) as (TI & _). congruence. }
      assert (SUB : incl (k_id m :: older i c l') (older i c (w_links w))).
      { intros j [<-|X]; [exact CMO|]. apply older_in in X. destruct X as (m' & X1 & X2 & X3 & X4). destruct (K5 m' X1) as [->|(m2 & Y1 & Y2 & ->)]; [cbn [chosen fst with_ext k_id] in X2; rewrite <- X2; exact CMO|].
        destruct (touch_id dlep (w_now w) m2) as (TI & _). apply older_in. exists m2. repeat split; auto; [congruence|].
        unfold touch in X4. destruct (looked_at dlep (k_env m2)); [destruct (_ =? _)|]; cbn [with_ext k_ext x_check] in X4; lia. }
      assert (ND2 : NoDup (k_id m :: older i c l')) by (constructor; [exact NIN|apply older_nodup; rewrite M; exact ND]).
      specialize (INC _ ND2 SUB). rewrite zlen_cons in INC. unfold ticks in *. cbn [filter]. rewrite zlen_cons. lia.
  - cbn [step] in S1. injection S1 as <- <-. cbn [w_links] in *. unfold ticks in *. cbn [filter]. exact (GO k I1 ID IK TX CK AD).
  - cbn [step] in S1. injection S1 as <- <-. cbn [w_links] in *. unfold ticks in *. cbn [filter].
    set (f := fun k0 : link => if k_id k0 =? i0 then {| k_id := i0; k_env := e; k_ext := k_ext k0 |} else k0) in *.
    assert (F : forall x, k_id (f x) = k_id x /\ k_ext (f x) = k_ext x) by (intro x; unfold f; destruct (Z.eqb_spec (k_id x) i0); cbn; auto). destruct (F k) as [F1 F2].
    assert (SU : zlen (older i c (map f (w_links w))) <= zlen (older i c (w_links w))).
    { apply INC; [apply older_nodup; exact (proj1 W1)|]. intros j X. apply older_in in X. destruct X as (m' & X1 & X2 & X3 & X4). apply in_map_iff in X1. destruct X1 as (m & <- & X1). destruct (F m) as [F3 F4]. apply older_in. exists m. rewrite F4 in X4. repeat split; auto; congruence. }
    assert (FE : idle dlep (f k) /\ (x_target (k_ext (f k)) <> None \/ e_addr (k_env (f k)) <> None)).
    { unfold f, idle. destruct (Z.eqb_spec (k_id k) i0) as [E|E]; [|auto]. cbn [k_env k_ext]. cbn [steady] in SO. destruct (SO ltac:(congruence)) as [SO1 SO2]. rewrite TX. auto. }
    destruct FE as [FE1 FE2]. specialize (GO (f k) (in_map f _ _ I1) ltac:(congruence) FE1 ltac:(congruence) ltac:(congruence) FE2). lia.
  - destruct SO.
  - cbn [step] in S1. injection S1 as <- <-. cbn [w_links] in *. unfold ticks in *. cbn [filter]. cbn [steady] in SO.
    assert (SU : zlen (older i c (filter (fun k0 : link => negb (k_id k0 =? i0)) (w_links w))) <= zlen (older i c (w_links w))).
    { apply INC; [apply older_nodup; exact (proj1 W1)|]. intros j X. apply older_in in X. destruct X as (m' & X1 & X). apply filter_In in X1. apply older_in. exists m'. tauto. }
    specialize (GO k). assert (IN : In k (filter (fun k0 : link => negb (k_id k0 =? i0)) (w_links w))) by (apply filter_In; split; [exact I1|]; apply negb_true_iff; apply Z.eqb_neq; congruence).
    specialize (GO IN ID IK TX CK AD). lia.
Qed.
(** A link that may be probed and has no traffic is probed with one of the next ticks, at
    the latest when there were as many as links; whatever happens to the other links
    meanwhile, while no links are added. *)
Theorem C145_turn_partial : forall dlep os0 t0 w i tx k os w' t, run dlep os0 init = (w, t0) -> In k (w_links w) -> k_id k = i -> idle dlep k -> x_tx (k_ext k) = tx -> e_addr (k_env k) <> None -> x_check (k_ext k) < w_now w ->
  Forall (steady dlep i tx) os -> run dlep os w = (w', t) -> w_now w' < 2 ^ 64 -> zlen (w_links w) <= ticks os -> exists dst, In (Tick, Some (i, dst)) t.
Proof.
  intros dlep os0 t0 w i tx k os w' t R0 I1 ID IK TX AD LT ST R L TK.
  destruct (existsb (fun x => match x with (Tick, Some (j, _)) => j =? i | _ => false end) t) eqn:EX.
  - apply existsb_exists in EX. destruct EX as ([o [[j dst]|]] & X1 & X2); destruct o; try discriminate. apply Z.eqb_eq in X2. subst j. exists dst. exact X1.
  - exfalso. pose proof (run_now _ _ _ _ _ R). pose proof (run_wf dlep os0 init w t0 init_wf ltac:(lia) R0) as W.
    assert (F : ticks os <= zlen (older i (x_check (k_ext k)) (w_links w))).
    { refine (fair dlep i tx _ os w w' t k W L ST R I1 ID IK TX eq_refl (or_intror AD) LT _). intros dst X. apply Bool.not_true_iff_false in EX. apply EX. apply existsb_exists. exists (Tick, Some (i, dst)). split; [exact X|apply Z.eqb_refl]. }
    assert (NDO : NoDup (i :: older i (x_check (k_ext k)) (w_links w))) by (constructor; [intro X; apply older_in in X; destruct X as (m & _ & _ & X & _); apply X; reflexivity|apply older_nodup; exact (proj1 W)]).
    assert (SUB : incl (i :: older i (x_check (k_ext k)) (w_links w)) (map k_id (w_links w))) by (intros j [<-|X]; [rewrite <- ID; apply in_map; exact I1|apply older_in in X; destruct X as (m & X & <- & _); apply in_map; exact X]).
    pose proof (NoDup_incl_length NDO SUB) as LE. rewrite map_length in LE. unfold zlen in *. cbn [length] in LE. lia.
Qed.

(** ** Examples and refutations *)

Definition wifi : net := {| n_flag := None; n_dlep := false; n_wireless := true |}.
Definition eth : net := {| n_flag := None; n_dlep := false; n_wireless := false |}.
Definition lenv_of (n : net) (tx a : Z) : lenv := {| e_net := Some n; e_sym := true; e_rx := true; e_tx := Some tx; e_addr := Some a |}.
Definition three : list op := [Add 1 (lenv_of wifi 10 101); Add 2 (lenv_of wifi 0 102); Add 3 (lenv_of eth 0 103); Wait 200; Tick; Wait 200; Tick; Wait 200].
Example C144_ex : map snd (snd (run true (three ++ [Change 2 (lenv_of wifi 1 102); Tick; Wait 200; Tick]) init)) = [None; None; None; None; Some (2, 102); None; Some (1, 101); None; None; Some (1, 101); None; Some (1, 101)].
Proof. vm_compute. reflexivity. Qed.
Example C145_ex : exists w t k, run true three init = (w, t) /\ In k (w_links w) /\ k_id k = 1 /\ idle true k /\ x_tx (k_ext k) = 10 /\ e_addr (k_env k) <> None /\ x_check (k_ext k) < w_now w /\ zlen (w_links w) = 3 /\
  Forall (steady true 1 10) [Tick; Change 2 (lenv_of wifi 7 102); Wait 200; Tick; Wait 200; Tick].
Proof.
  do 3 eexists. split; [vm_compute; reflexivity|]. split; [left; reflexivity|]. split; [reflexivity|]. split; [|split; [reflexivity|split; [discriminate|split; [cbn; lia|split; [reflexivity|]]]]].
  - unfold idle, probed_kind. cbn [k_env k_ext e_net e_sym e_rx e_tx x_tx lenv_of]. split; [|auto]. exists wifi. split; [reflexivity|]. right; right. auto.
  - repeat constructor; cbn; try discriminate; lia.
Qed.
(** C144: the probe goes to the address the link had at the first probe, not to the
    present one (nhdp_reader.c:665 changes it with every HELLO) *)
Theorem C144_address_refuted : exists os w t w' k dst, run true os init = (w, t) /\ step true Tick w = (w', Some (k_id k, dst)) /\ In k (w_links w) /\ e_addr (k_env k) = Some 201 /\ dst = 101 /\
  os = [Add 1 (lenv_of wifi 0 101); Wait 200; Tick; Change 1 (lenv_of wifi 0 201); Wait 200].
Proof.
  do 4 eexists. exists {| k_id := 1; k_env := lenv_of wifi 0 201; k_ext := {| x_check := 200; x_tx := 0; x_target := Some 101 |} |}, 101.
  split; [|split; [|split; [|split; [|split; [|reflexivity]]]]]; [vm_compute; reflexivity|vm_compute; reflexivity|left; reflexivity|reflexivity|reflexivity].
Qed.
(** C145: links that come new are probed first: a link waits as long as new ones come *)
Fixpoint churn (n : nat) : list op := match n with O => [] | S m => [Remove 2; Add 2 (lenv_of wifi 0 102); Tick; Wait 200] ++ churn m end.
Theorem C145_new_links_refuted : forall n, Z.of_nat n < 2 ^ 50 -> exists w t w' t' k, run true [Add 1 (lenv_of wifi 10 101); Add 2 (lenv_of wifi 0 102); Wait 200; Tick; Wait 200] init = (w, t) /\ In k (w_links w) /\ k_id k = 1 /\ idle true k /\
  run true (churn n) w = (w', t') /\ ticks (churn n) = Z.of_nat n /\ forall dst, ~ In (Tick, Some (1, dst)) t'.
Proof.
  intros n B.
  set (k1 := {| k_id := 1; k_env := lenv_of wifi 10 101; k_ext := {| x_check := 200; x_tx := 10; x_target := None |} |}).
  assert (K : forall n now k2, 200 < now -> now + 200 * Z.of_nat n < 2 ^ 64 -> k_id k2 = 2 -> exists w' t', run true (churn n) {| w_now := now; w_links := [k1; k2] |} = (w', t') /\ forall dst, ~ In (Tick, Some (1, dst)) t').
  { clear n B. induction n as [|n IH]; intros now k2 N1 N2 E; [do 2 eexists; split; [reflexivity|intros dst []]|].
    set (k2' := {| k_id := 2; k_env := lenv_of wifi 0 102; k_ext := {| x_check := now; x_tx := 0; x_target := Some 102 |} |}).
    assert (T : tick true now [k1; {| k_id := 2; k_env := lenv_of wifi 0 102; k_ext := new_ext |}] = ([k1; k2'], Some (2, 102))).
    { unfold tick. cbn [scan visit k_env k1 looked_at lenv_of e_net check_if_type wifi n_flag n_dlep n_wireless e_sym e_rx e_tx andb k_ext x_tx new_ext x_check]. change (10 =? 10) with true. change (0 =? 0) with true. cbn [negb].
      assert (U1 : u64 (now - 200) = now - 200) by (unfold u64; apply Z.mod_small; lia). assert (U2 : u64 (now - 0) = now) by (unfold u64; rewrite Z.sub_0_r; apply Z.mod_small; lia). rewrite U1, U2.
      replace (0 <? now - 200) with true by lia. replace (now - 200 <? now) with true by lia. reflexivity. }
    destruct (IH (now + 200) k2') as (w' & t' & R & NP); [lia|lia|reflexivity|].
    assert (S1 : step true (Remove 2) {| w_now := now; w_links := [k1; k2] |} = ({| w_now := now; w_links := [k1] |}, None)) by (unfold step; cbn [w_links w_now filter]; rewrite E; reflexivity).
    assert (S2 : step true (Add 2 (lenv_of wifi 0 102)) {| w_now := now; w_links := [k1] |} = ({| w_now := now; w_links := [k1; {| k_id := 2; k_env := lenv_of wifi 0 102; k_ext := new_ext |}] |}, None)) by reflexivity.
    assert (S3 : step true Tick {| w_now := now; w_links := [k1; {| k_id := 2; k_env := lenv_of wifi 0 102; k_ext := new_ext |}] |} = ({| w_now := now; w_links := [k1; k2'] |}, Some (2, 102))) by (unfold step; cbn [w_links w_now]; rewrite T; reflexivity).
    assert (S4 : step true (Wait 200) {| w_now := now; w_links := [k1; k2'] |} = ({| w_now := now + 200; w_links := [k1; k2'] |}, None)) by reflexivity.
    cbn [churn app run]. rewrite S1, S2, S3, S4, R. do 2 eexists. split; [reflexivity|].
    intros dst [X|[X|[X|[X|X]]]]; try discriminate. exact (NP dst X). }
  set (k2 := {| k_id := 2; k_env := lenv_of wifi 0 102; k_ext := {| x_check := 200; x_tx := 0; x_target := Some 102 |} |}).
  destruct (K n 400 k2) as (w' & t' & R & NP); [lia|lia|reflexivity|].
  exists {| w_now := 400; w_links := [k1; k2] |}. eexists. exists w', t', k1. split; [vm_compute; reflexivity|]. split; [left; reflexivity|]. split; [reflexivity|]. split.
  - unfold idle, probed_kind. cbn [k1 k_env k_ext e_net e_sym e_rx e_tx x_tx lenv_of]. split; [|auto]. exists wifi. split; [reflexivity|]. right; right. auto.
  - split; [exact R|]. split; [|exact NP]. clear. induction n as [|n IH]; [reflexivity|]. unfold ticks in *. cbn [churn app filter]. rewrite zlen_cons, IH. lia.
Qed.

(** * C146: the probe has the configured size *)

(** if the message has space for it, the TLV with [size] zero bytes is the content of the
    message; the message is within its space *)
Theorem C146_size_partial : forall buf max size, zlen buf = 1225 -> 6 <= max <= 1225 -> 1 <= size -> size + (if 255 <? size then 10 else 9) <= max ->
  exists d, probe_message buf max size = Some d /\ tw_added d = size + (if 255 <? size then 4 else 3) /\ tw_header d + tw_added d <= max /\ zlen (tw_buf d) = 1225 /\
    (exists pre post, tw_buf d = pre ++ tlv_bytes 128 0 0 255 (repeat 0 (Z.to_nat size)) ++ post /\ zlen pre = 6 /\ zlen (tlv_bytes 128 0 0 255 (repeat 0 (Z.to_nat size))) = tw_added d).
Proof.
  intros buf max size LB LM LS FIT. unfold probe_message, tlv_add. cbn [tw_header tw_added tw_allocated tw_max tw_buf tw_set].
  assert (ZL : zlen (repeat 0 (Z.to_nat size)) = size) by (unfold zlen; rewrite repeat_length; lia).
  set (v := repeat 0 (Z.to_nat size)) in *. change (negb (0 =? 0)) with false.
  assert (CS : calc_tlv_size false (zlen v) = size + (if 255 <? size then 4 else 3)).
  { rewrite ZL. unfold calc_tlv_size. rewrite Z.gtb_ltb. assert (u64 (2 + size) = 2 + size) as -> by (unfold u64; apply Z.mod_small; destruct (255 <? size); lia). destruct (Z.ltb_spec 255 size).
    - unfold u64. rewrite Z.mod_small by lia. lia.
    - rewrite Z.gtb_ltb. replace (0 <? size) with true by lia. unfold u64. rewrite Z.mod_small by lia. lia. }
  rewrite CS. set (s := size + (if 255 <? size then 4 else 3)) in *. assert (SB : 4 <= s <= 1219) by (unfold s; destruct (Z.ltb_spec 255 size); lia).
  assert (u64 (6 + 0 + 0 + s) = 6 + s) as -> by (unfold u64; rewrite Z.mod_small; lia). assert (FT : 6 + s <= max) by (unfold s; destruct (255 <? size); lia). replace (6 + s >? max) with false by lia.
  assert (TL : zlen (tlv_bytes 128 0 0 255 v) = s).
  { unfold tlv_bytes. rewrite ZL. change (negb (0 =? 0)) with false. change ((0 >? 0) || (255 <? 255)) with false. rewrite !zlen_app, !zlen_cons. change (zlen (@nil Z)) with 0. rewrite !Z.gtb_ltb. unfold s. destruct (Z.ltb_spec 255 size); replace (0 <? size) with true by lia; rewrite ?zlen_cons, ZL; change (zlen (@nil Z)) with 0; lia. }
  change (6 + 0) with 6.
  set (pre := firstn 6 buf). set (mid := firstn (Z.to_nat s) (skipn 6 buf)). set (post := skipn (Z.to_nat s) (skipn 6 buf)).
  assert (SP : buf = pre ++ mid ++ post) by (unfold pre, mid, post; rewrite !firstn_skipn; reflexivity).
  assert (LP : zlen pre = 6) by (unfold pre, zlen in *; rewrite firstn_length; lia).
  assert (LMI : zlen mid = s) by (unfold mid, zlen in *; rewrite firstn_length, skipn_length; lia).
  rewrite SP. rewrite (copy_in_split (tlv_bytes 128 0 0 255 v) pre mid post); [|auto|lia]. eexists. split; [reflexivity|]. cbn [tw_added tw_header tw_buf].
  assert (u64 (0 + s) = s) as -> by (unfold u64; apply Z.mod_small; lia). split; [reflexivity|]. split; [exact FT|]. split; [rewrite SP in LB; rewrite !zlen_app in *; lia|]. exists pre, post. auto.
Qed.
(** sizes up to 1500 can be configured: above 1215 the message is sent without the TLV *)
Theorem C146_size_refuted : forall buf max size, max <= 1225 -> 1216 <= size <= 1500 -> exists d, probe_message buf max size = Some d /\ tw_header d + tw_added d = 6.
Proof.
  intros buf max size LM LS. unfold probe_message, tlv_add. cbn [tw_header tw_added tw_allocated tw_max].
  assert (ZL : zlen (repeat 0 (Z.to_nat size)) = size) by (unfold zlen; rewrite repeat_length; lia). rewrite ZL. change (negb (0 =? 0)) with false.
  assert (CS : calc_tlv_size false size = size + 4).
  { unfold calc_tlv_size. rewrite Z.gtb_ltb. replace (255 <? size) with true by lia. unfold u64. rewrite (Z.mod_small (2 + size)) by lia. rewrite Z.mod_small by lia. lia. }
  rewrite CS. assert (u64 (6 + 0 + 0 + (size + 4)) = size + 10) as -> by (unfold u64; rewrite Z.mod_small by lia; lia). replace (size + 10 >? max) with true by lia. eexists. split; reflexivity.
Qed.
Example C146_ex : zlen (repeat 7 1225) = 1225 /\ 512 + (if 255 <? 512 then 10 else 9) <= 1225.
Proof. split; [reflexivity|cbn; lia]. Qed.

Print Assumptions C144_whom.
Print Assumptions C144_some.
Print Assumptions C144_traffic.
Print Assumptions C144_address_refuted.
Print Assumptions C145_turn_partial.
Print Assumptions C145_new_links_refuted.
Print Assumptions C146_size_partial.
Print Assumptions C146_size_refuted.
