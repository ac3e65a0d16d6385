(** Proofs about the topology database: what TC messages, timeouts and neighbors
    do (C79-C84). *)
From Verif Require Import Base CodecModel CodecSpec TcModel TcSpec TcProofs.
From Verif Require DomModel DomSpec DomProofs CodecProofs.

(** * Invariants beyond the structure, maybe except for one node *)
Record good (d : db) (ex : option Z) : Prop := {
  (* a node without validity timer has only virtual edges and no attachments, and
     is kept by a neighbor or by another node *)
  g_dead : forall m x, Some m <> ex -> d_nodes d m = Some x -> n_valid x = None ->
    n_atts x = [] /\ (forall e y, d_edges d e = Some y -> e_src y = m -> e_virt y = true) /\ (n_direct x = true \/ n_edges x <> []);
  (* announced edges and attachments have the ANSN of the node *)
  g_edge : forall e y x, d_edges d e = Some y -> e_virt y = false -> Some (e_src y) <> ex -> d_nodes d (e_src y) = Some x -> e_ansn y = n_ansn x;
  g_att : forall a y x, d_atts d a = Some y -> Some (a_src y) <> ex -> d_nodes d (a_src y) = Some x -> a_ansn y = n_ansn x }.

Lemma good_weak d ex : good d None -> good d ex.
Proof. intros [G1 G2 G3]. constructor; intros; eauto; [eapply G1|eapply G2|eapply G3]; eauto; discriminate. Qed.

Lemma wf_dst d e y : wf d -> d_edges d e = Some y -> exists z, d_nodes d (e_dst y) = Some z.
Proof.
  intros W Hy. destruct (c_inv _ (wf_c _ W) _ _ Hy) as (w & Hw & _ & W2 & _). destruct (c_src _ (wf_c _ W) _ _ Hw) as (z & Hz & _).
  rewrite W2 in Hz. eauto.
Qed.
Lemma wf_src d e y : wf d -> d_edges d e = Some y -> exists z, d_nodes d (e_src y) = Some z /\ In e (n_edges z).
Proof. intros W Hy. apply (c_src _ (wf_c _ W) _ _ Hy). Qed.
Lemma wf_att d a y : wf d -> d_atts d a = Some y -> (exists z, d_nodes d (a_src y) = Some z /\ In a (n_atts z)) /\ exists p, d_eps d (a_dst y) = Some p.
Proof. intros W Hy. destruct (c_att _ (wf_c _ W) _ _ Hy) as (H & p & Hp & _). eauto. Qed.

(** ** Frames *)
Lemma good_edge_added d d' src addr e : wf d -> edge_added d d' src addr e -> good d (Some src) -> good d' (Some src).
Proof.
  intros W A [G1 G2 G3]. destruct (ea_edge _ _ _ _ _ A) as (x & z & Hx & Sx & Hz & Az & Vx & Cx & Old & Back).
  destruct (ea_rest _ _ _ _ _ A) as (R1 & R2 & R3 & R4 & R5).
  constructor.
  - intros m y N Hy V. assert (Nm : m <> src) by congruence.
    assert (RE : forall f w, d_edges d' f = Some w -> e_src w = m -> e_virt w = false -> d_edges d f = Some w).
    { intros f w Hw Sw Vw. destruct (Z.eq_dec f e) as [->|Nf]; [congruence|]. destruct (Back f w Nf Hw) as [Q|(_ & _ & _ & Q & _)]; [auto|congruence]. }
    destruct (ea_new _ _ _ _ _ A _ _ Hy) as [Q|(B & E)].
    + destruct (d_nodes d m) as [y0|] eqn:Hy0; [|congruence]. destruct (ea_nodes _ _ _ _ _ A _ _ Hy0) as (y1 & Hy1 & B & P). assert (y1 = y) as -> by congruence.
      assert (n_valid y0 = None) by (rewrite B in V; exact V). destruct (G1 m y0 N Hy0 H) as (Q1 & Q2 & Q3). split; [rewrite B; exact Q1|]. split.
      * intros f w Hw Sw. destruct (e_virt w) eqn:Vw; auto. pose proof (RE f w Hw Sw Vw) as Hw0. specialize (Q2 f w Hw0 Sw). congruence.
      * destruct Q3 as [Q3|Q3]; [left; rewrite B; exact Q3|right; auto].
    + destruct (d_nodes d m) as [y0|] eqn:Hy0.
      * destruct (ea_nodes _ _ _ _ _ A _ _ Hy0) as (y1 & Hy1 & B' & P). assert (y1 = y) as -> by congruence.
        assert (n_valid y0 = None) by (rewrite B' in V; exact V). destruct (G1 m y0 N Hy0 H) as (Q1 & Q2 & Q3). split; [rewrite B'; exact Q1|]. split; auto.
        intros f w Hw Sw. destruct (e_virt w) eqn:Vw; auto. pose proof (RE f w Hw Sw Vw) as Hw0. specialize (Q2 f w Hw0 Sw). congruence.
      * split; [rewrite B; reflexivity|]. split; auto. intros f w Hw Sw. destruct (e_virt w) eqn:Vw; auto. pose proof (RE f w Hw Sw Vw) as Hw0.
        destruct (wf_src _ _ _ W Hw0) as (u & Hu & _). congruence.
  - intros f w x' Hw Vw N Hx'. destruct (Z.eq_dec f e) as [->|Nf]; [congruence|]. destruct (Back f w Nf Hw) as [Q|(_ & _ & _ & Q & _)]; [|congruence].
    destruct (wf_src _ _ _ W Q) as (u & Hu & _). destruct (ea_nodes _ _ _ _ _ A _ _ Hu) as (u1 & Hu1 & B & _). assert (u1 = x') as -> by congruence.
    rewrite B. cbn. eapply G2; eauto.
  - rewrite R1. intros a w x' Hw N Hx'. destruct (wf_att _ _ _ W Hw) as ((u & Hu & _) & _). destruct (ea_nodes _ _ _ _ _ A _ _ Hu) as (u1 & Hu1 & B & _).
    assert (u1 = x') as -> by congruence. rewrite B. cbn. eapply G3; eauto.
Qed.
Lemma good_att_added d d' n key a : att_added d d' n key a -> good d (Some n) -> good d' (Some n).
Proof.
  intros A [G1 G2 G3]. destruct (aa_att _ _ _ _ _ A) as (x & p & Hx & Sx & _). constructor.
  - intros m y N Hy V. rewrite (aa_nodes _ _ _ _ _ A) in Hy by congruence. rewrite (aa_edges _ _ _ _ _ A). apply (G1 m y N Hy V).
  - rewrite (aa_edges _ _ _ _ _ A). intros f w x' Hw Vw N Hx'. rewrite (aa_nodes _ _ _ _ _ A) in Hx' by congruence. eapply G2; eauto.
  - intros b w x' Hw N Hx'. destruct (Z.eq_dec b a) as [->|Nb]; [congruence|]. rewrite (aa_atts _ _ _ _ _ A) in Hw by auto. rewrite (aa_nodes _ _ _ _ _ A) in Hx' by congruence. eapply G3; eauto.
Qed.
Lemma good_edges_gone d d' n R : wf d -> edges_gone d d' n R -> good d (Some n) -> good d' (Some n).
Proof.
  intros W A [G1 G2 G3].
  assert (RE : forall f w, d_edges d' f = Some w -> e_virt w = false -> d_edges d f = Some w).
  { intros f w Hw V. destruct (eg_back _ _ _ _ A _ _ Hw) as [Q|(y0 & _ & _ & ->)]; [auto|discriminate]. }
  constructor.
  - intros m y' N Hy V. destruct (eg_nodes _ _ _ _ A m y' ltac:(congruence) Hy) as (y & Hy0 & Cl & P). destruct (cleaned_valid _ _ Cl) as (V' & D' & _).
    destruct (G1 m y N Hy0 ltac:(congruence)) as (Q1 & Q2 & Q3). split; [destruct Cl as [->|(_ & ->)]; auto|]. split.
    + intros f w Hw Sw. destruct (e_virt w) eqn:Vw; auto. pose proof (RE _ _ Hw Vw) as Hw0. specialize (Q2 _ _ Hw0 Sw). congruence.
    + destruct (n_edges y') as [|? ?] eqn:E; [|right; discriminate]. left. destruct (P eq_refl) as [Q|[Q|Q]]; [congruence|auto|]. destruct Q3 as [Q3|Q3]; congruence.
  - intros f w x' Hw Vw N Hx'. destruct (eg_nodes _ _ _ _ A (e_src w) x' ltac:(congruence) Hx') as (y & Hy0 & Cl & _). destruct (cleaned_valid _ _ Cl) as (_ & _ & _ & S').
    rewrite S'. exact (G2 f w y (RE _ _ Hw Vw) Vw N Hy0).
  - intros b w x' Hw N Hx'. destruct (eg_nodes _ _ _ _ A (a_src w) x' ltac:(congruence) Hx') as (y & Hy0 & Cl & _). destruct (cleaned_valid _ _ Cl) as (_ & _ & _ & S').
    rewrite S'. exact (G3 b w y (eg_atts _ _ _ _ A _ _ Hw) N Hy0).
Qed.
Lemma good_atts_gone d d' n R : atts_gone d d' n R -> good d (Some n) -> good d' (Some n).
Proof.
  intros A [G1 G2 G3]. constructor.
  - intros m y N Hy V. rewrite (ag_nodes _ _ _ _ A) in Hy by congruence. rewrite (ag_edges _ _ _ _ A). apply (G1 m y N Hy V).
  - rewrite (ag_edges _ _ _ _ A). intros f w x' Hw Vw N Hx'. rewrite (ag_nodes _ _ _ _ A) in Hx' by congruence. eapply G2; eauto.
  - intros b w x' Hw N Hx'. rewrite (ag_atts _ _ _ _ A) in Hw. destruct (R b); [discriminate|]. rewrite (ag_nodes _ _ _ _ A) in Hx' by congruence. eapply G3; eauto.
Qed.

(** writing to an edge, an attachment *)
Lemma good_put_edge d e x x' ex : good d ex -> d_edges d e = Some x -> e_src x' = e_src x -> e_virt x' = e_virt x ->
  (Some (e_src x) <> ex -> e_ansn x' = e_ansn x) -> good (set_edges d (hset (d_edges d) e (Some x'))) ex.
Proof.
  intros [G1 G2 G3] Hx S V A. constructor; cbn; auto.
  - intros m y N Hy Vy. destruct (G1 m y N Hy Vy) as (Q1 & Q2 & Q3). split; auto. split; auto. intros f w. unfold hset.
    destruct (Z.eqb_spec f e) as [->|]; [|apply Q2]. intros [= <-] Sw. rewrite V. eapply Q2; eauto. congruence.
  - intros f w y. unfold hset. destruct (Z.eqb_spec f e) as [->|]; [|apply G2]. intros [= <-] Vw N Hy. rewrite A by congruence.
    eapply G2; eauto; try congruence.
Qed.
Lemma good_put_att d a x x' ex : good d ex -> d_atts d a = Some x -> a_src x' = a_src x ->
  (Some (a_src x) <> ex -> a_ansn x' = a_ansn x) -> good (set_atts d (hset (d_atts d) a (Some x'))) ex.
Proof.
  intros [G1 G2 G3] Hx S A. constructor; cbn; auto.
  intros f w y. unfold hset. destruct (Z.eqb_spec f a) as [->|]; [|apply G3]. intros [= <-] N Hy. rewrite A by congruence.
  eapply G3; eauto; try congruence.
Qed.

(** * Nodes are kept: address, ANSN, timer and the mark as neighbor stay *)
Definition same_head (x x' : tnode) : Prop :=
  n_addr x' = n_addr x /\ n_ansn x' = n_ansn x /\ n_valid x' = n_valid x /\ n_direct x' = n_direct x.
Definition kept (d d' : db) (n : Z) : Prop := forall x, d_nodes d n = Some x -> exists x', d_nodes d' n = Some x' /\ same_head x x'.
Lemma same_head_refl x : same_head x x. Proof. repeat split. Qed.
Lemma same_head_trans x y z : same_head x y -> same_head y z -> same_head x z.
Proof. intros (A1 & A2 & A3 & A4) (B1 & B2 & B3 & B4). repeat split; congruence. Qed.
Lemma kept_refl d n : kept d d n. Proof. intros x Hx. exists x. split; auto using same_head_refl. Qed.
Lemma kept_trans a b c n : kept a b n -> kept b c n -> kept a c n.
Proof. intros H1 H2 x Hx. destruct (H1 _ Hx) as (y & Hy & S1). destruct (H2 _ Hy) as (z & Hz & S2). exists z. split; auto. eapply same_head_trans; eauto. Qed.
Lemma head_edges x x' : but_edges x x' -> same_head x x'.
Proof. intros B. unfold same_head. rewrite B. repeat split. Qed.
Lemma head_atts x x' : but_atts x x' -> same_head x x'.
Proof. intros B. unfold same_head. rewrite B. repeat split. Qed.
Lemma kept_edge_added d d' src addr e n : edge_added d d' src addr e -> kept d d' n.
Proof. intros A x Hx. destruct (ea_nodes _ _ _ _ _ A _ _ Hx) as (x' & Hx' & B & _). exists x'. split; auto using head_edges. Qed.
Lemma kept_att_added d d' src addr e n : att_added d d' src addr e -> kept d d' n.
Proof.
  intros A x Hx. destruct (Z.eq_dec n src) as [->|N].
  - destruct (aa_node _ _ _ _ _ A _ Hx) as (x' & Hx' & B). exists x'. split; auto using head_atts.
  - exists x. rewrite (aa_nodes _ _ _ _ _ A) by auto. split; auto using same_head_refl.
Qed.
Lemma kept_edges_gone d d' n R : edges_gone d d' n R -> kept d d' n.
Proof. intros A x Hx. destruct (eg_node _ _ _ _ A _ Hx) as (x' & Hx' & B). exists x'. split; auto using head_edges. Qed.
Lemma kept_atts_gone d d' n R m : atts_gone d d' n R -> kept d d' m.
Proof.
  intros A x Hx. destruct (Z.eq_dec m n) as [->|N].
  - destruct (ag_node _ _ _ _ A _ Hx) as (l & Hx' & _). eexists. split; [exact Hx'|]. repeat split.
  - exists x. rewrite (ag_nodes _ _ _ _ A) by auto. split; auto using same_head_refl.
Qed.
Lemma kept_nodes d d' n : d_nodes d' = d_nodes d -> kept d d' n.
Proof. intros E x Hx. exists x. rewrite E. split; auto using same_head_refl. Qed.

(** nodes that are new have no validity time, and are not those of neighbors *)
Definition back (d d' : db) : Prop := forall m x', d_nodes d' m = Some x' ->
  (exists x, d_nodes d m = Some x /\ same_head x x') \/ (d_nodes d m = None /\ n_ansn x' = 0 /\ n_valid x' = None /\ n_direct x' = false).
Lemma back_refl d : back d d. Proof. intros m x H. left. exists x. split; auto using same_head_refl. Qed.
Lemma back_nodes d d' : d_nodes d' = d_nodes d -> back d d'.
Proof. intros E m x H. left. exists x. rewrite <- E. split; auto using same_head_refl. Qed.
Lemma back_trans a b c : back a b -> back b c -> (forall m, kept a b m) -> back a c.
Proof.
  intros H1 H2 K m z Hz. destruct (H2 _ _ Hz) as [(y & Hy & S1)|(Ny & Q)].
  - destruct (H1 _ _ Hy) as [(x & Hx & S2)|(Nx & Q1 & Q2 & Q3)].
    + left. exists x. split; auto. eapply same_head_trans; eauto.
    + right. destruct S1 as (_ & S1 & S2 & S3). repeat split; auto; congruence.
  - right. split; auto. destruct (d_nodes a m) as [x|] eqn:Hx; auto. destruct (K m x Hx) as (x' & Hx' & _). congruence.
Qed.
Lemma back_edge_added d d' src addr e : edge_added d d' src addr e -> back d d'.
Proof.
  intros A m x' Hx'. destruct (d_nodes d m) as [x|] eqn:Hx.
  - left. exists x. split; auto. destruct (kept_edge_added _ _ _ _ _ m A _ Hx) as (x2 & Hx2 & S). congruence.
  - right. split; auto. destruct (ea_new _ _ _ _ _ A _ _ Hx') as [Q|(Q & _)]; [congruence|]. rewrite Q. repeat split.
Qed.
Lemma back_kept d d' : (forall m, kept d d' m) -> (forall m, d_nodes d m = None -> d_nodes d' m = None) -> back d d'.
Proof.
  intros K N m x' Hx'. destruct (d_nodes d m) as [x|] eqn:Hx; [|rewrite N in Hx'; [discriminate|auto]]. left. exists x. split; auto.
  destruct (K m _ Hx) as (x2 & Hx2 & S). congruence.
Qed.

(** * Reading costs *)
Section Domains.
Variable ds : list DomModel.dom.
Hypothesis Ok : DomSpec.doms_ok ds.

Definition cost_ok (c : Z) : Prop := c <= METRIC_MAX \/ c = METRIC_INFINITE.
Lemma metric_max b0 b1 : byte b0 -> byte b1 -> metric_decode b0 b1 <= METRIC_MAX /\ metric_decode b0 b1 = metric_value (256 * (b0 mod 16) + b1).
Proof.
  intros H0 H1. unfold byte in *. rewrite CodecProofs.metric_decode_spec by (unfold is_u8; lia). split; auto. unfold metric_value, METRIC_MAX.
  assert (0 <= b0 mod 16 < 16) by (apply Z.mod_pos_bound; lia).
  replace ((256 * (b0 mod 16) + b1) / 256) with (b0 mod 16) by (apply Z.div_unique with b1; lia).
  replace ((256 * (b0 mod 16) + b1) mod 256) with b1 by (apply Z.mod_unique with (b0 mod 16); lia).
  pose proof (Z.pow_le_mono_r 2 (b0 mod 16) 15 ltac:(lia) ltac:(lia)). change (2 ^ 15) with 32768 in H2.
  pose proof (Z.pow_pos_nonneg 2 (b0 mod 16) ltac:(lia) ltac:(lia)). nia.
Qed.
Lemma ext_index ext i : DomModel.get_by_ext 0 ds ext = Some i -> exists d, zget ds i = Some d /\ DomModel.d_ext d = ext /\ 0 <= i < MAXDOM.
Proof.
  intros H. destruct (DomProofs.get_by_ext_some _ _ _ _ H) as (d & Hd & E). replace (i - 0) with i in Hd by lia. exists d. split; auto. split; auto.
  pose proof (zget_bound _ _ _ Hd). destruct Ok as (L & _). change MAXDOM with 4. lia.
Qed.
Lemma index_ext i d : zget ds i = Some d -> DomModel.get_by_ext 0 ds (DomModel.d_ext d) = Some i.
Proof. intros H. rewrite (DomProofs.get_by_ext_at ds (proj1 (proj2 Ok)) 0 i d H). f_equal; lia. Qed.

Definition last_out (l : list (Z * (Z * Z))) (old i c : Z) : Prop :=
  (exists d l1 b0 b1 l2, zget ds i = Some d /\ l = l1 ++ (DomModel.d_ext d, (b0, b1)) :: l2 /\ Z.land b0 16 <> 0 /\
     c = metric_value (256 * (b0 mod 16) + b1) /\ forall e0 e1, In (DomModel.d_ext d, (e0, e1)) l2 -> Z.land e0 16 = 0) \/
  ((forall d e0 e1, zget ds i = Some d -> In (DomModel.d_ext d, (e0, e1)) l -> Z.land e0 16 = 0) /\ c = old).

Lemma read_costs_ok : forall l ci co, (forall e b0 b1, In (e, (b0, b1)) l -> byte b0 /\ byte b1) ->
  zlen ci = MAXDOM -> zlen co = MAXDOM -> Forall cost_ok ci -> Forall cost_ok co ->
  exists ci' co', read_costs ds l ci co = Some (ci', co') /\ zlen ci' = MAXDOM /\ zlen co' = MAXDOM /\ Forall cost_ok ci' /\ Forall cost_ok co' /\
  forall i c, zget co' i = Some c -> exists o, zget co i = Some o /\ last_out l o i c.
Proof.
  induction l as [|(ext & b0 & b1) l IH]; intros ci co Hb Li Lo Fi Fo; cbn [read_costs].
  - exists ci, co. do 5 (split; auto). intros i c Hc. exists c. split; auto. right. split; auto; intros d e0 e1 _ [].
  - assert (Hb' : forall e c0 c1, In (e, (c0, c1)) l -> byte c0 /\ byte c1) by (intros e c0 c1 I; apply (Hb e c0 c1); right; auto).
    destruct (Hb ext b0 b1 (or_introl eq_refl)) as (B0 & B1). destruct (metric_max b0 b1 B0 B1) as (Mx & Me).
    destruct (DomModel.get_by_ext 0 ds ext) as [i|] eqn:G.
    + destruct (ext_index _ _ G) as (dm & Hdm & Ex & Bi).
      assert (K : forall f l0, zlen l0 = MAXDOM -> Forall cost_ok l0 -> exists l1, (if metric_has_flag b0 f then zset l0 i (metric_decode b0 b1) else Some l0) = Some l1 /\
        zlen l1 = MAXDOM /\ Forall cost_ok l1 /\ forall j, zget l1 j = if metric_has_flag b0 f && (j =? i) then Some (metric_decode b0 b1) else zget l0 j).
      { intros f l0 L0 F0. destruct (metric_has_flag b0 f).
        - destruct (DomProofs.zset_some l0 i (metric_decode b0 b1) ltac:(lia)) as (l1 & S1). exists l1. rewrite S1. split; auto. split; [rewrite (zset_len _ _ _ _ S1); auto|]. split.
          + unfold zset in S1. destruct (_ && _); [|discriminate]. injection S1 as <-. apply Forall_set_nth; auto. left; auto.
          + intros j. rewrite (zget_zset _ _ _ j _ S1). cbn. reflexivity.
        - exists l0. auto. }
      destruct (K DomModel.INCOMING_NEIGH ci Li Fi) as (ci1 & -> & L1 & F1 & _). destruct (K DomModel.OUTGOING_NEIGH co Lo Fo) as (co1 & -> & L2 & F2 & Z2).
      destruct (IH ci1 co1 Hb' L1 L2 F1 F2) as (ci' & co' & E & Q1 & Q2 & Q3 & Q4 & Q5). exists ci', co'. do 5 (split; auto).
      intros j c Hc. destruct (Q5 j c Hc) as (o & Ho & P). rewrite Z2 in Ho.
      destruct (Z.eqb_spec j i) as [->|N].
      * destruct (metric_has_flag b0 DomModel.OUTGOING_NEIGH) eqn:Fl; cbn [andb] in Ho.
        -- injection Ho as <-. destruct (zget_Some co i ltac:(lia)) as (o & Ho). exists o. split; auto.
           assert (Z.land b0 16 <> 0). { unfold metric_has_flag in Fl. change (u8 DomModel.OUTGOING_NEIGH) with 16 in Fl. destruct (Z.eqb_spec (Z.land b0 16) 0); [discriminate|auto]. }
           destruct P as [(d & l1 & c0 & c1 & l2 & P1 & P2 & P3 & P4 & P5)|(P1 & P2)].
           ++ left. exists d, ((ext, (b0, b1)) :: l1), c0, c1, l2. repeat split; auto. rewrite P2. reflexivity.
           ++ left. exists dm, [], b0, b1, l. rewrite Ex. repeat split; auto; [congruence|]. intros e0 e1 I. apply (P1 dm e0 e1 Hdm). rewrite Ex. auto.
        -- exists o. split; auto.
           assert (Z.land b0 16 = 0). { unfold metric_has_flag in Fl. change (u8 DomModel.OUTGOING_NEIGH) with 16 in Fl. destruct (Z.eqb_spec (Z.land b0 16) 0); [auto|discriminate]. }
           destruct P as [(d & l1 & c0 & c1 & l2 & P1 & P2 & P3 & P4 & P5)|(P1 & P2)].
           ++ left. exists d, ((ext, (b0, b1)) :: l1), c0, c1, l2. repeat split; auto. rewrite P2. reflexivity.
           ++ right. split; auto. intros d e0 e1 Hd [I|I]; [injection I as _ <- _; auto|eapply P1; eauto].
      * rewrite andb_false_r in Ho. exists o. split; auto. destruct P as [(d & l1 & c0 & c1 & l2 & P1 & P2 & P3 & P4 & P5)|(P1 & P2)].
        -- left. exists d, ((ext, (b0, b1)) :: l1), c0, c1, l2. repeat split; auto. rewrite P2. reflexivity.
        -- right. split; auto. intros d e0 e1 Hd [I|I]; [|eapply P1; eauto]. injection I as I _ _. exfalso. apply N.
           pose proof (index_ext _ _ Hd) as Q. rewrite <- I, G in Q. congruence.
    + destruct (IH ci co Hb' Li Lo Fi Fo) as (ci' & co' & E & Q1 & Q2 & Q3 & Q4 & Q5). exists ci', co'. do 5 (split; auto).
      intros j c Hc. destruct (Q5 j c Hc) as (o & Ho & P). exists o. split; auto. destruct P as [(d & l1 & c0 & c1 & l2 & P1 & P2 & P3 & P4 & P5)|(P1 & P2)].
      * left. exists d, ((ext, (b0, b1)) :: l1), c0, c1, l2. repeat split; auto. rewrite P2. reflexivity.
      * right. split; auto. intros d e0 e1 Hd [I|I]; [|eapply P1; eauto]. injection I as I _ _.
        pose proof (index_ext _ _ Hd) as Q. rewrite <- I, G in Q. discriminate.
Qed.
Lemma no_cost_ok : Forall cost_ok no_cost.
Proof. repeat constructor; right; reflexivity. Qed.
Lemma no_cost_get i c : zget no_cost i = Some c -> c = METRIC_INFINITE.
Proof. intros H. apply (Forall_zget (fun c => c = METRIC_INFINITE)) in H; auto. repeat constructor. Qed.
Lemma costs_read l : (forall e b0 b1, In (e, (b0, b1)) l -> byte b0 /\ byte b1) ->
  exists ci co, read_costs ds l no_cost no_cost = Some (ci, co) /\ zlen ci = MAXDOM /\ Forall cost_ok ci /\ Forall cost_ok co /\ zlen co = MAXDOM /\ costs ds l co.
Proof.
  intros H. destruct (read_costs_ok l no_cost no_cost H eq_refl eq_refl no_cost_ok no_cost_ok) as (ci & co & E & L1 & L2 & F1 & F2 & P).
  exists ci, co. do 5 (split; auto). split; auto. intros i x Hx. destruct (P i x Hx) as (o & Ho & Q). rewrite (no_cost_get _ _ Ho) in Q. exact Q.
Qed.

(** storing them *)
Definition told_in (old new : list bool) : Prop := forall i, zget old i = Some true -> zget new i = Some true.
Lemma told_refl l : told_in l l. Proof. intros i H; auto. Qed.
Lemma told_trans a b c : told_in a b -> told_in b c -> told_in a c. Proof. intros H1 H2 i H; auto. Qed.
Lemma store_len c : forall new old ch, zlen (fst (store c new old ch)) = zlen old /\ zlen (snd (store c new old ch)) = zlen ch.
Proof.
  induction new as [|x new IH]; intros [|o old] [|b ch]; cbn [store]; auto. destruct (IH old ch) as (H1 & H2).
  destruct (x <=? METRIC_MAX); [|destruct c]; cbn [fst snd]; rewrite !DomProofs.zlen_cons; lia.
Qed.
Lemma zget_shift {A} (x : A) l i : 0 < i -> zget (x :: l) i = zget l (i - 1).
Proof. intros H. replace i with (i - 1 + 1) at 1 by lia. apply DomProofs.zget_cons. lia. Qed.
Lemma zget_neg {A} (l : list A) i : i < 0 -> zget l i = None.
Proof. intros H. destruct (zget l i) eqn:E; auto. apply zget_bound in E. lia. Qed.
Lemma store_told c : forall new old ch, told_in ch (snd (store c new old ch)) /\
  forall i x o b, zget new i = Some x -> zget old i = Some o -> zget ch i = Some b -> x <= METRIC_MAX -> x <> o -> zget (snd (store c new old ch)) i = Some true.
Proof.
  induction new as [|x new IH]; intros [|o old] [|b ch]; cbn [store]; try (split; [apply told_refl|]; intros i ? ? ? H1 H2 H3; exfalso;
     try (apply zget_bound in H1; change (zlen (@nil Z)) with 0 in H1; lia); try (apply zget_bound in H2; change (zlen (@nil Z)) with 0 in H2; lia); try (apply zget_bound in H3; change (zlen (@nil bool)) with 0 in H3; lia)).
  destruct (IH old ch) as (H1 & H2).
  assert (T : forall b', (b = true -> b' = true) -> told_in (b :: ch) (b' :: snd (store c new old ch))).
  { intros b' Hb i Hi. destruct (Z.lt_trichotomy i 0) as [L|[->|L]].
    - pose proof (zget_bound _ _ _ Hi); lia.
    - change (Some b = Some true) in Hi. change (Some b' = Some true). injection Hi as Hi. now rewrite (Hb Hi).
    - rewrite zget_shift in Hi |- * by auto. auto. }
  split.
  - destruct (x <=? METRIC_MAX); [|destruct c]; cbn [snd]; apply T; intros ->; auto.
  - intros i y p q Hy Hp Hq Le Ne. destruct (Z.lt_trichotomy i 0) as [L|[->|L]].
    + pose proof (zget_bound _ _ _ Hy); lia.
    + cbn in Hy, Hp, Hq. injection Hy as ->. injection Hp as ->. injection Hq as ->. destruct (Z.leb_spec y METRIC_MAX); [|lia]. cbn.
      destruct (Z.eqb_spec p y); [congruence|]. cbn. now rewrite orb_true_r.
    + rewrite zget_shift in Hy by auto. rewrite zget_shift in Hp by auto. rewrite (zget_shift b) in Hq by auto. pose proof (H2 _ _ _ _ Hy Hp Hq Le Ne) as Q.
      destruct (x <=? METRIC_MAX); [|destruct c]; cbn [snd]; rewrite zget_shift by auto; auto.
Qed.
Lemma store_fresh_gen c : forall new k ch, Forall cost_ok new -> length new = k -> length ch = k -> fst (store c new (repeat METRIC_INFINITE k) ch) = new.
Proof.
  induction new as [|x new IH]; intros [|k] [|b ch] F L1 L2; cbn [repeat store]; try discriminate; auto. inversion F as [|? ? F1 F2]; subst.
  assert (IHk := IH k ch F2 ltac:(cbn in L1; lia) ltac:(cbn in L2; lia)). destruct (Z.leb_spec x METRIC_MAX).
  - cbn. now rewrite IHk.
  - assert (x = METRIC_INFINITE) as -> by (destruct F1; [lia|auto]). destruct c; cbn; now rewrite IHk.
Qed.
Lemma store_fresh c new ch : Forall cost_ok new -> zlen new = MAXDOM -> zlen ch = MAXDOM -> fst (store c new no_cost ch) = new.
Proof. intros F L1 L2. unfold no_cost. apply store_fresh_gen; auto; unfold zlen in *; lia. Qed.

(** * One address *)
Definition links_set (d d' : db) (n addr : Z) (c : list Z) (sq : Z) : Prop := forall m B c' s',
  link d' m B c' s' <-> (m = n /\ B = addr /\ c' = c /\ s' = sq) \/ (~ (m = n /\ B = addr) /\ link d m B c' s').
Definition links_same (d d' : db) : Prop := forall m B c s, link d' m B c s <-> link d m B c s.
Definition atts_set (d d' : db) (n K sq : Z) : Prop := forall m K' s',
  attached d' m K' s' <-> (m = n /\ K' = K /\ s' = sq) \/ (~ (m = n /\ K' = K) /\ attached d m K' s').
Definition atts_same (d d' : db) : Prop := forall m K s, attached d' m K s <-> attached d m K s.

Record ongoing (d d' : db) (n : Z) : Prop := {
  og_wf : wf d';
  og_good : good d (Some n) -> good d' (Some n);
  og_kept : forall m, kept d d' m;
  og_back : back d d';
  og_log : d_log d' = d_log d }.
Lemma ongoing_refl d n : wf d -> ongoing d d n.
Proof. intros W. constructor; auto; [|apply back_refl]. intros m. apply kept_refl. Qed.
Lemma ongoing_trans a b c n : ongoing a b n -> ongoing b c n -> ongoing a c n.
Proof. intros [A1 A2 A3 A4 A5] [B1 B2 B3 B4 B5]. constructor; auto; [| |congruence]. - intros m. eapply kept_trans; eauto. - eapply back_trans; eauto. Qed.

(** links and attachments only depend on parts of the database *)
Lemma links_same_nodes d d' : wf d -> d_edges d' = d_edges d -> (forall m, kept d d' m) -> links_same d d'.
Proof.
  intros W E K m B c s. unfold link. rewrite E. split.
  - intros (e & y & z & H1 & H2 & H3 & H4 & H5 & H6 & H7). destruct (wf_dst _ _ _ W H1) as (z0 & Hz0). destruct (K _ _ Hz0) as (z1 & Hz1 & (A & _)).
    exists e, y, z0. repeat split; auto. congruence.
  - intros (e & y & z & H1 & H2 & H3 & H4 & H5 & H6 & H7). destruct (K _ _ H6) as (z1 & Hz1 & (A & _)). exists e, y, z1. repeat split; auto. congruence.
Qed.
Lemma atts_same_eq d d' : d_atts d' = d_atts d -> d_eps d' = d_eps d -> atts_same d d'.
Proof. intros E1 E2 m K s. unfold attached. rewrite E1, E2. reflexivity. Qed.

Definition sess_ok (s : session) (n : Z) (types : bytes) (cp : bool) : Prop :=
  c_node s = Some n /\ zlen (c_changed s) = MAXDOM /\ c_types s = types /\ c_complete s = cp.
(** a finite cost is told *)
Definition tells (c : list Z) (ch : list bool) : Prop := forall i x, zget c i = Some x -> x <= METRIC_MAX -> zget ch i = Some true.

Lemma neighbor_ok d s n x a ci co types cp b : wf d -> d_nodes d n = Some x -> n_addr x <> i_addr a -> sess_ok s n types cp ->
  zlen ci = MAXDOM -> Forall cost_ok co -> zlen co = MAXDOM ->
  i_type a = Some b -> Z.land b 1 <> 0 ->
  exists d' s', cb_type d s n a ci co = Some (d', s') /\ ongoing d d' n /\ sess_ok s' n types cp /\
    links_set d d' n (i_addr a) co (n_ansn x) /\ atts_same d d' /\ told_in (c_changed s) (c_changed s') /\ tells co (c_changed s').
Proof.
  intros W Hx Na (S1 & S2 & S3 & S4) Li Fo Lo Ty Tb. unfold cb_type. rewrite Ty. destruct (Z.eqb_spec (Z.land b 1) 0); [contradiction|]. cbn [negb].
  destruct (edge_add_ok d n (i_addr a) x W Hx Na) as (d1 & e & -> & W1 & A). destruct (ea_nodes _ _ _ _ _ A _ _ Hx) as (x1 & Hx1 & Bx & _). rewrite Hx1.
  destruct (ea_edge _ _ _ _ _ A) as (y & z & Hy & Sy & Hz & Az & Vy & Cy & Old & Back). destruct (ea_rest _ _ _ _ _ A) as (R1 & R2 & R3 & R4 & R5).
  assert (Ex1 : n_ansn x1 = n_ansn x) by (rewrite Bx; reflexivity).
  destruct (put_edge_ok d1 e y (ed_ansn (n_ansn x1)) W1 Hy eq_refl ltac:(cbn; rewrite Cy; reflexivity)) as (d2 & E2 & W2 & D2). rewrite E2.
  assert (He2 : d_edges d2 e = Some (ed_ansn (n_ansn x1) y)) by (rewrite D2; cbn; apply hset_same). rewrite He2. cbn [ed_ansn e_cost e_inv].
  rewrite Cy. pose proof (store_fresh (c_complete s) co (c_changed s) Fo Lo S2) as SF. pose proof (store_len (c_complete s) co no_cost (c_changed s)) as (SL1 & SL2).
  pose proof (store_told (c_complete s) co no_cost (c_changed s)) as (ST1 & ST2).
  destruct (put_edge_ok d2 e _ (ed_cost (fst (store (c_complete s) co no_cost (c_changed s)))) W2 He2 eq_refl ltac:(cbn; rewrite SF; auto)) as (d3 & E3 & W3 & D3). rewrite E3.
  set (y3 := mkTE (e_src y) (e_dst y) (e_inv y) co (n_ansn x1) (e_virt y)).
  assert (He3 : d_edges d3 e = Some y3) by (rewrite D3; cbn; rewrite hset_same, SF; reflexivity).
  assert (Ho3 : forall f, f <> e -> d_edges d3 f = d_edges d1 f) by (intros f Nf; rewrite D3, D2; cbn; rewrite !hset_other; auto).
  assert (N3 : d_nodes d3 = d_nodes d1 /\ d_atts d3 = d_atts d1 /\ d_eps d3 = d_eps d1 /\ d_log d3 = d_log d1) by (rewrite D3, D2; auto).
  destruct N3 as (N31 & N32 & N33 & N34).
  destruct (c_inv _ (wf_c _ W3) _ _ He3) as (w & Hw & I1 & I2 & I3 & _). cbn [y3 e_inv e_dst e_src] in Hw, I2, I3.
  assert (Nw : e_inv y <> e) by (intros Q; rewrite Q, He3 in Hw; injection Hw as <-; cbn in *; apply (c_self _ (wf_c _ W1) _ _ Hy); auto).
  rewrite Hw.
  assert (T : tells co (snd (store (c_complete s) co no_cost (c_changed s)))).
  { intros i c Hc Hm. destruct (zget_Some (c_changed s) i) as (bb & Hbb); [pose proof (zget_bound _ _ _ Hc); lia|].
    destruct (zget_Some no_cost i) as (o & Ho); [pose proof (zget_bound _ _ _ Hc); change (zlen no_cost) with MAXDOM; lia|].
    eapply ST2; eauto. rewrite (no_cost_get _ _ Ho). unfold METRIC_MAX in Hm. unfold METRIC_INFINITE. lia. }
  assert (G3 : good d (Some n) -> good d3 (Some n)).
  { intros G. pose proof (good_edge_added _ _ _ _ _ W A G) as G1. rewrite D3. eapply good_put_edge; [|exact He2|reflexivity|reflexivity|cbn; congruence].
    rewrite D2. eapply good_put_edge; [exact G1|exact Hy|reflexivity|reflexivity|congruence]. }
  (* the links, for any final database with these edges *)
  assert (L : forall d4, d_nodes d4 = d_nodes d3 -> d_edges d4 e = Some y3 ->
     (forall f v, f <> e -> e_virt v = false -> (d_edges d4 f = Some v <-> d_edges d3 f = Some v)) -> wf d4 -> links_set d d4 n (i_addr a) co (n_ansn x)).
  { intros d4 N4 E4 O4 W4 m B c' s'. unfold link. split.
    - intros (f & v & u & H1 & H2 & H3 & H4 & H5 & H6 & H7). destruct (Z.eq_dec f e) as [->|Nf].
      + left. assert (v = y3) as -> by congruence. cbn in *. rewrite N4, N31, Hz in H6. injection H6 as <-. repeat split; congruence.
      + right. pose proof H1 as H1'. rewrite (O4 f v Nf H3), Ho3 in H1' by auto. destruct (Back f v Nf H1') as [Q|(_ & _ & _ & Q & _)]; [|congruence].
        destruct (wf_dst _ _ _ W Q) as (u0 & Hu0). destruct (kept_edge_added _ _ _ _ _ (e_dst v) A _ Hu0) as (u1 & Hu1 & (Au & _)).
        rewrite N4, N31 in H6. split.
        * intros (-> & ->). apply Nf. apply (c_one _ (wf_c _ W4) f e v y3 H1 E4); cbn; [congruence|]. apply (c_addr _ (wf_c _ W1) _ _ u z H6 Hz). congruence.
        * exists f, v, u0. repeat split; auto. congruence.
    - intros [(-> & -> & -> & ->)|(N & f & v & u & H1 & H2 & H3 & H4 & H5 & H6 & H7)].
      + exists e, y3, z. cbn. rewrite N4, N31. repeat split; auto.
      + assert (Nf : f <> e).
        { intros ->. apply N. pose proof (Old v H1) as Qy. assert (Sv : e_src v = n) by (rewrite <- Sy, Qy; reflexivity). split; [congruence|].
          assert (Dv : e_dst v = e_dst y) by (rewrite Qy; reflexivity). destruct (kept_edge_added _ _ _ _ _ (e_dst v) A _ H6) as (u1 & Hu1 & (Au & _)). rewrite Dv, Hz in Hu1. injection Hu1 as <-. congruence. }
        pose proof (ea_edges _ _ _ _ _ A f v Nf H1) as Q. destruct (kept_edge_added _ _ _ _ _ (e_dst v) A _ H6) as (u1 & Hu1 & (Au & _)).
        exists f, v, u1. split; [apply (O4 f v Nf H3); rewrite Ho3; auto|]. rewrite N4, N31. repeat split; auto. congruence. }
  destruct (e_virt w) eqn:Vw.
  - pose proof (store_len (c_complete s) ci (e_cost w) (snd (store (c_complete s) co no_cost (c_changed s)))) as (SM1 & SM2).
    pose proof (store_told (c_complete s) ci (e_cost w) (snd (store (c_complete s) co no_cost (c_changed s)))) as (SN1 & _).
    destruct (put_edge_ok d3 (e_inv y) w (ed_cost (fst (store (c_complete s) ci (e_cost w) (snd (store (c_complete s) co no_cost (c_changed s)))))) W3 Hw eq_refl) as (d4 & E4 & W4 & D4).
    { cbn. rewrite SM1. eapply (proj2 (wf_l _ W3)); eauto. }
    rewrite E4. eexists d4, _. split; [reflexivity|]. split; [|split; [|split; [|split; [|split]]]].
    + constructor; auto.
      * intros G. rewrite D4. eapply good_put_edge; [apply G3; auto|exact Hw|reflexivity|reflexivity|reflexivity].
      * intros m. rewrite D4. eapply kept_trans; [apply (kept_edge_added _ _ _ _ _ m A)|]. apply kept_nodes. cbn. auto.
      * rewrite D4. eapply back_trans; [apply (back_edge_added _ _ _ _ _ A)|apply back_nodes; cbn; auto|]. intros m. apply (kept_edge_added _ _ _ _ _ m A).
      * rewrite D4. cbn. congruence.
    + repeat split; auto. cbn. congruence.
    + apply L; [rewrite D4; auto|rewrite D4; cbn; rewrite hset_other; auto| |auto]. intros f v Nf Vv. rewrite D4. cbn. unfold hset. destruct (Z.eqb_spec f (e_inv y)) as [->|]; [|reflexivity].
      split; intros Q; [injection Q as <-; cbn in Vv; congruence|congruence].
    + apply atts_same_eq; rewrite D4; cbn; congruence.
    + cbn. eapply told_trans; eauto.
    + cbn. intros i c Hc Hm. apply SN1. eapply T; eauto.
  - eexists d3, _. split; [reflexivity|]. split; [|split; [|split; [|split; [|split]]]].
    + constructor; auto.
      * intros m. eapply kept_trans; [apply (kept_edge_added _ _ _ _ _ m A)|]. apply kept_nodes. auto.
      * eapply back_trans; [apply (back_edge_added _ _ _ _ _ A)|apply back_nodes; auto|]. intros m. apply (kept_edge_added _ _ _ _ _ m A).
      * congruence.
    + repeat split; auto. cbn. congruence.
    + apply L; auto. reflexivity.
    + apply atts_same_eq; congruence.
    + cbn. auto.
    + cbn. auto.
Qed.

(** attachments *)
Lemma attach_ok d n x key mesh f : wf d -> d_nodes d n = Some x ->
  (forall y, zlen (a_cost y) = MAXDOM -> zlen (a_dist y) = MAXDOM -> a_src (f y) = a_src y /\ a_dst (f y) = a_dst y /\ zlen (a_cost (f y)) = MAXDOM /\ zlen (a_dist (f y)) = MAXDOM /\ a_ansn (f y) = n_ansn x) ->
  exists d1 a x1 y d', endpoint_add d n key mesh = Some (d1, a) /\ d_nodes d1 n = Some x1 /\ n_ansn x1 = n_ansn x /\ d_atts d1 a = Some y /\
    zlen (a_cost y) = MAXDOM /\ zlen (a_dist y) = MAXDOM /\
    put_att d1 a f = Some d' /\ ongoing d d' n /\ links_same d d' /\ atts_set d d' n key (n_ansn x).
Proof.
  intros W Hx Hf. destruct (endpoint_add_ok d n x key mesh W Hx) as (d1 & a & E & W1 & A). destruct (aa_att _ _ _ _ _ A) as (y & p & Hy & Sy & Hp & Kp & Old).
  destruct (aa_node _ _ _ _ _ A _ Hx) as (x1 & Hx1 & Bx). destruct (proj1 (wf_l _ W1) _ _ Hy) as (L1 & L2). destruct (Hf y L1 L2) as (F1 & F2 & F3 & F4 & F5).
  destruct (put_att_ok d1 a y f W1 Hy) as (d' & E' & W' & D'); [unfold ash; congruence|auto|auto|].
  exists d1, a, x1, y, d'. split; auto. split; auto. split; [rewrite Bx; reflexivity|]. split; auto. split; auto. split; auto. split; auto.
  assert (K : forall m, kept d d' m).
  { intros m. eapply kept_trans; [apply (kept_att_added _ _ _ _ _ m A)|]. apply kept_nodes. rewrite D'. auto. }
  split; [|split].
  - constructor; auto.
    + intros G. rewrite D'. eapply good_put_att; [eapply good_att_added; eauto|exact Hy|congruence|congruence].
    + apply back_kept; auto. intros m Nm. rewrite D'. cbn. rewrite (aa_nodes _ _ _ _ _ A); auto. intros ->. congruence.
    + rewrite D'. apply (aa_rest _ _ _ _ _ A).
  - apply links_same_nodes; auto. rewrite D'. apply (aa_edges _ _ _ _ _ A).
  - intros m K' s'. unfold attached. rewrite D'. cbn [set_atts d_atts d_eps]. split.
    + intros (b & v & q & H1 & H2 & H3 & H4 & H5). unfold hset in H1. destruct (Z.eqb_spec b a) as [->|Nb].
      * injection H1 as <-. left. rewrite F2, Hp in H4. injection H4 as <-. repeat split; congruence.
      * right. rewrite (aa_atts _ _ _ _ _ A) in H1 by auto. destruct (wf_att _ _ _ W H1) as (_ & q0 & Hq0). destruct (aa_eps _ _ _ _ _ A _ _ Hq0) as (q1 & Hq1 & Kq). split.
        -- intros (-> & ->). apply Nb. assert (d_atts d1 b = Some v) as Q by (rewrite (aa_atts _ _ _ _ _ A); auto).
           apply (c_att_one _ (wf_c _ W1) b a v y Q Hy); [congruence|]. apply (c_key _ (wf_c _ W1) _ _ q p H4 Hp). congruence.
        -- exists b, v, q0. repeat split; auto. congruence.
    + intros [(-> & -> & ->)|(N & b & v & q & H1 & H2 & H3 & H4 & H5)].
      * exists a, (f y), p. rewrite hset_same. repeat split; auto; congruence.
      * destruct (aa_eps _ _ _ _ _ A _ _ H4) as (q1 & Hq1 & Kq). assert (Nb : b <> a).
        { intros ->. apply N. destruct Old as [Q|(Q & _)]; [|congruence]. assert (v = y) as -> by congruence. split; [congruence|]. assert (q1 = p) by congruence. congruence. }
        exists b, v, q1. rewrite hset_other, (aa_atts _ _ _ _ _ A) by auto. repeat split; auto. congruence.
Qed.

Lemma gw_types_ok v co : zlen co = MAXDOM -> forall types i cost dist, 0 <= i -> zlen v = 1 \/ i + zlen types <= zlen v -> zlen cost = MAXDOM -> zlen dist = MAXDOM ->
  exists c g, gw_types ds i types v co cost dist = Some (c, g) /\ zlen c = MAXDOM /\ zlen g = MAXDOM.
Proof.
  intros Lo. induction types as [|t types IH]; intros i cost dist Hi Hv L1 L2; cbn [gw_types].
  - eauto.
  - rewrite DomProofs.zlen_cons in Hv. destruct (DomModel.get_by_ext 0 ds t) as [x|] eqn:G.
    + destruct (ext_index _ _ G) as (_ & _ & _ & Bx). destruct (zget_Some co x ltac:(lia)) as (c & ->).
      destruct (DomProofs.zset_some cost x c ltac:(lia)) as (cost' & S1). rewrite S1.
      assert (exists b, (if zlen v =? 1 then zget v 0 else zget v i) = Some b) as (b & ->).
      { destruct (Z.eqb_spec (zlen v) 1); apply zget_Some; pose proof (zlen_nonneg types); lia. }
      destruct (DomProofs.zset_some dist x b ltac:(lia)) as (dist' & S2). rewrite S2.
      apply IH; [lia|lia|rewrite (zset_len _ _ _ _ S1); auto|rewrite (zset_len _ _ _ _ S2); auto].
    + apply IH; auto; lia.
Qed.

Definition prefix_of (nt : Z) (a : ain) (K : Z) : Prop := (is_routable a /\ i_key a = K) \/ is_gateway nt a K.
Definition atts_put (d d' : db) (n sq : Z) (P : Z -> Prop) : Prop := forall m K s,
  attached d' m K s <-> (m = n /\ s = sq /\ P K) \/ (attached d m K s /\ (m = n -> P K -> s = sq)).
Lemma atts_put_set d d' n K0 sq : atts_set d d' n K0 sq -> atts_put d d' n sq (eq K0).
Proof.
  intros H m K s. rewrite (H m K s). destruct (Z.eq_dec m n) as [->|]; [|intuition congruence].
  destruct (Z.eq_dec K K0) as [->|]; [|intuition congruence]. split.
  - intros [H1|(H1 & _)]; [left; tauto|exfalso; auto].
  - intros [H1|(H1 & H2)]; [tauto|]. left. rewrite H2; auto.
Qed.
Lemma atts_put_same d d' n sq P : atts_same d d' -> (forall K, ~ P K) -> atts_put d d' n sq P.
Proof. intros H N m K s. rewrite (H m K s). specialize (N K). tauto. Qed.
Lemma atts_put_ext d d' n sq P Q : (forall K, P K <-> Q K) -> atts_put d d' n sq P -> atts_put d d' n sq Q.
Proof. intros E H m K s. rewrite (H m K s), (E K). reflexivity. Qed.
Lemma atts_put_trans a b c n sq P Q : atts_put a b n sq P -> atts_put b c n sq Q -> atts_put a c n sq (fun K => P K \/ Q K).
Proof.
  intros H1 H2 m K s. rewrite (H2 m K s), (H1 m K s). split.
  - intros [(E1 & E2 & E3)|([(E1 & E2 & E3)|(E1 & E2)] & E4)]; [tauto|tauto|]. right. split; auto. intros E5 [E6|E6]; auto.
  - intros [(E1 & E2 & [E3|E3])|(E1 & E2)]; [| |].
    + right. split; auto.
    + left. auto.
    + right. split; [right; split; auto|]; intros; apply E2; auto.
Qed.

Lemma gateways_ok d s n x ext v key co types cp : wf d -> d_nodes d n = Some x -> sess_ok s n types cp -> zlen co = MAXDOM -> v <> [] ->
  exists d', handle_gateways ds d s n ext v key co = Some d' /\ ongoing d d' n /\ links_same d d' /\
    atts_put d d' n (n_ansn x) (fun K => key = K /\ 0 <= ext <= 2 /\ (zlen v = 1 \/ zlen types <= zlen v)).
Proof.
  intros W Hx (S1 & S2 & S3 & S4) Lo Nv. unfold handle_gateways. rewrite S3.
  assert (Lv : 1 <= zlen v) by (destruct v; [congruence|rewrite DomProofs.zlen_cons; pose proof (zlen_nonneg v); lia]).
  assert (Same : exists d', Some d = Some d' /\ ongoing d d' n /\ links_same d d' /\ atts_same d d').
  { exists d. split; auto. split; [apply ongoing_refl; auto|]. split; intros ? ? ?; reflexivity. }
  destruct ((1 <? zlen v) && (zlen v <? zlen types)) eqn:C1.
  { destruct Same as (d' & E & O & L & A). exists d'. split; auto. split; auto. split; auto. apply atts_put_same; auto. intros K (_ & _ & H). lia. }
  destruct ((0 <=? ext) && (ext <=? 2)) eqn:C2; cbn [negb].
  2:{ destruct Same as (d' & E & O & L & A). exists d'. split; auto. split; auto. split; auto. apply atts_put_same; auto. intros K (_ & H & _). lia. }
  destruct (endpoint_add_ok d n x key false W Hx) as (d1 & a & E & W1 & A). rewrite E.
  destruct (aa_node _ _ _ _ _ A _ Hx) as (x1 & Hx1 & Bx). rewrite Hx1. destruct (aa_att _ _ _ _ _ A) as (y & p & Hy & _). rewrite Hy.
  destruct (proj1 (wf_l _ W1) _ _ Hy) as (L1 & L2).
  destruct (gw_types_ok v co Lo types 0 (if c_complete s then no_cost else a_cost y) (a_dist y)) as (c & g & Eg & Lc & Lg); [lia|lia|destruct (c_complete s); auto|auto|]. rewrite Eg.
  assert (Ex1 : n_ansn x1 = n_ansn x) by (rewrite Bx; reflexivity).
  destruct (attach_ok d n x key false (fun t => at_cost c (at_dist g (at_ansn (n_ansn x1) t))) W Hx) as (d1' & a' & x1' & y' & d' & E' & _ & _ & _ & _ & _ & Ep & O & L & At).
  { intros t _ _. cbn. repeat split; auto. }
  rewrite E in E'. injection E' as <- <-. cbn [fst snd]. exists d'. split; auto. split; auto. split; auto.
  eapply atts_put_ext; [|apply atts_put_set; exact At]. intros K. split; [intros ->; repeat split; lia|tauto].
Qed.

(** one address: the callback *)
Record address_effect (d d' : db) (n sq nt : Z) (a : ain) (ch ch' : list bool) : Prop := {
  ae_link : forall m B c s, link d' m B c s -> (m = n /\ s = sq /\ is_neighbor a /\ i_addr a = B /\ costs ds (i_metric a) c /\ tells c ch') \/
                                              (~ (m = n /\ is_neighbor a /\ i_addr a = B) /\ link d m B c s);
  ae_keep : forall m B c s, ~ (m = n /\ is_neighbor a /\ i_addr a = B) -> link d m B c s -> link d' m B c s;
  ae_stay : forall m B c, link d m B c sq -> exists c', link d' m B c' sq;
  ae_new : is_neighbor a -> exists c, link d' n (i_addr a) c sq;
  ae_atts : atts_put d d' n sq (prefix_of nt a);
  ae_told : told_in ch ch' }.

Lemma address_ok d s n x a types cp : wf d -> d_nodes d n = Some x -> sess_ok s n types cp -> i_ok a = true -> wf_addr a ->
  (is_neighbor a -> i_addr a <> n_addr x) ->
  exists d' s', cb_address ds d s a = Some (d', s') /\ ongoing d d' n /\ sess_ok s' n types cp /\
    address_effect d d' n (n_ansn x) (zlen types) a (c_changed s) (c_changed s').
Proof.
  intros W Hx Hs Ha (W1 & W2 & W3) Hn. unfold cb_address. rewrite (proj1 Hs). destruct (costs_read (i_metric a) W1) as (ci & co & E & Li & Fi & Fo & Lo & Co). rewrite E. cbn [fst snd].
  (* the type *)
  assert (T : exists d1 s1, cb_type d s n a ci co = Some (d1, s1) /\ ongoing d d1 n /\ sess_ok s1 n types cp /\
     ((is_neighbor a /\ links_set d d1 n (i_addr a) co (n_ansn x)) \/ (~ is_neighbor a /\ links_same d d1)) /\
     atts_put d d1 n (n_ansn x) (fun K => is_routable a /\ i_key a = K) /\ told_in (c_changed s) (c_changed s1) /\ (is_neighbor a -> tells co (c_changed s1))).
  { destruct (i_type a) as [b|] eqn:Ty.
    2:{ unfold cb_type. rewrite Ty. exists d, s. split; auto. split; [apply ongoing_refl; auto|]. split; auto. split; [right; split; [intros (_ & b & Q & _); congruence|intros ? ? ? ?; reflexivity]|].
        split; [apply atts_put_same; [intros ? ? ?; reflexivity|intros K ((_ & b & Q & _) & _); congruence]|]. split; [apply told_refl|]. intros (_ & b & Q & _); congruence. }
    destruct (Z.eq_dec (Z.land b 1) 0) as [Z1|Z1].
    - assert (NN : ~ is_neighbor a) by (intros (_ & b' & Q & Q'); congruence).
      destruct (Z.eq_dec (Z.land b 2) 0) as [Z2|Z2].
      + unfold cb_type. rewrite Ty, Z1, Z2. cbn. exists d, s. split; auto. split; [apply ongoing_refl; auto|]. split; auto. split; [right; split; [auto|intros ? ? ? ?; reflexivity]|].
        split; [apply atts_put_same; [intros ? ? ?; reflexivity|intros K ((_ & b' & Q & _ & Q') & _); congruence]|]. split; [apply told_refl|]. tauto.
      + unfold cb_type. rewrite Ty, Z1. cbn [negb Z.eqb]. destruct (Z.eqb_spec (Z.land b 2) 0); [contradiction|]. cbn [negb].
        destruct (endpoint_add_ok d n x (i_key a) true W Hx) as (d1 & t & Ee & Wd1 & A). rewrite Ee.
        destruct (aa_node _ _ _ _ _ A _ Hx) as (x1 & Hx1 & Bx). rewrite Hx1. destruct (aa_att _ _ _ _ _ A) as (y & p & Hy & _). rewrite Hy.
        assert (Ex1 : n_ansn x1 = n_ansn x) by (rewrite Bx; reflexivity). destruct (proj1 (wf_l _ Wd1) _ _ Hy) as (Ly1 & Ly2).
        pose proof (store_len (c_complete s) co (a_cost y) (c_changed s)) as (SL1 & SL2). pose proof (store_told (c_complete s) co (a_cost y) (c_changed s)) as (ST & _).
        destruct (attach_ok d n x (i_key a) true (fun z => at_cost (fst (store (c_complete s) co (a_cost y) (c_changed s))) (at_ansn (n_ansn x1) z)) W Hx) as (d1' & a' & x1' & y' & d' & E' & _ & _ & _ & _ & _ & Ep & O & L & At).
        { intros z Q1 Q2. cbn. repeat split; auto. congruence. }
        rewrite Ee in E'. injection E' as <- <-. rewrite Ep. destruct Hs as (H1 & H2 & H3 & H4). eexists d', _. split; [reflexivity|]. split; auto. split; [repeat split; auto; cbn; congruence|].
        split; [right; auto|]. split; [|split; [auto|tauto]].
        eapply atts_put_ext; [|apply atts_put_set; exact At]. intros K. split; [intros ->; split; auto; split; auto; exists b; auto|intros (_ & Q); auto].
    - assert (NN : is_neighbor a) by (split; auto; exists b; auto).
      destruct (neighbor_ok d s n x a ci co types cp b W Hx ltac:(intros Q; apply (Hn NN); auto) Hs Li Fo Lo Ty Z1) as (d1 & s1 & E1 & O & Hs1 & L & A & T1 & T2).
      exists d1, s1. split; auto. split; auto. split; auto. split; auto. split; [|auto].
      apply atts_put_same; auto. intros K ((_ & b' & Q & Q' & _) & _). congruence. }
  destruct T as (d1 & s1 & E1 & O1 & Hs1 & L1 & A1 & T1 & T2). rewrite E1. cbn [fst snd].
  destruct (og_kept _ _ _ O1 n _ Hx) as (x1 & Hx1 & (_ & Ex1 & _)).
  assert (G : exists d2, (match i_gw a with None => Some (d1, s1) | Some (ext, v, key) => do d2 <- handle_gateways ds d1 s1 n ext v key co; Some (d2, s1) end) = Some (d2, s1) /\
     ongoing d1 d2 n /\ links_same d1 d2 /\ atts_put d1 d2 n (n_ansn x) (is_gateway (zlen types) a)).
  { destruct (i_gw a) as [((ext & v) & key)|] eqn:Gw.
    - destruct W3 as (Nv & _). destruct (gateways_ok d1 s1 n x1 ext v key co types cp (og_wf _ _ _ O1) Hx1 Hs1 Lo Nv) as (d2 & E2 & O2 & L2 & A2). rewrite E2. exists d2. split; auto. split; auto. split; auto.
      rewrite Ex1 in A2. eapply atts_put_ext; [|exact A2]. intros K. unfold is_gateway. rewrite Gw. split.
      + intros (-> & Q). split; auto. exists ext, v. auto.
      + intros (_ & e' & v' & Q & Q'). injection Q as -> -> ->. auto.
    - exists d1. split; auto. split; [apply ongoing_refl; apply (og_wf _ _ _ O1)|]. split; [intros ? ? ? ?; reflexivity|]. apply atts_put_same; [intros ? ? ?; reflexivity|]. intros K (_ & e' & v' & Q & _). congruence. }
  destruct G as (d2 & E2 & O2 & L2 & A2). exists d2, s1. split; [exact E2|]. split; [eapply ongoing_trans; eauto|]. split; auto.
  constructor; auto.
  - intros m B c s0 H. apply L2 in H. destruct L1 as [(NN & L1)|(NN & L1)]; apply L1 in H.
    + destruct H as [(-> & -> & -> & ->)|(N & H)]; [left; repeat split; try apply NN; auto; apply Co|right; split; auto]. intros (-> & _ & <-). apply N; auto.
    + right. split; auto. tauto.
  - intros m B c s0 N H. apply L2. destruct L1 as [(NN & L1)|(NN & L1)]; apply L1; auto. right. split; auto. intros (-> & ->). apply N; auto.
  - intros m B c H. destruct L1 as [(NN & L1)|(NN & L1)].
    + destruct (Z.eq_dec m n) as [->|Nm]; [destruct (Z.eq_dec B (i_addr a)) as [->|NB]|].
      * exists co. apply L2, L1. auto.
      * exists c. apply L2, L1. right. split; auto. tauto.
      * exists c. apply L2, L1. right. split; auto. tauto.
    + exists c. apply L2, L1. auto.
  - intros NN. destruct L1 as [(_ & L1)|(NN' & _)]; [|contradiction]. exists co. apply L2, L1. auto.
  - eapply atts_put_ext; [|eapply atts_put_trans; [exact A1|exact A2]]. intros K. reflexivity.
Qed.

(** * All addresses *)
Record addresses_effect (d d' : db) (n sq nt : Z) (l : list ain) (ch ch' : list bool) : Prop := {
  le_link : forall m B c s, link d' m B c s -> (m = n /\ s = sq /\ last_costs ds l B c /\ tells c ch') \/
                                              (~ (m = n /\ lists_neighbor l B) /\ link d m B c s);
  le_keep : forall m B c s, ~ (m = n /\ lists_neighbor l B) -> link d m B c s -> link d' m B c s;
  le_stay : forall m B c, link d m B c sq -> exists c', link d' m B c' sq;
  le_new : forall B, lists_neighbor l B -> exists c, link d' n B c sq;
  le_atts : atts_put d d' n sq (lists_prefix nt l);
  le_told : told_in ch ch' }.

Lemma addresses_ok types cp : forall l d s n x, wf d -> d_nodes d n = Some x -> sess_ok s n types cp -> (forall a, In a l -> i_ok a = true -> wf_addr a) ->
  (forall a, In a l -> is_neighbor a -> i_addr a <> n_addr x) ->
  exists d' s', cb_addresses ds d s l = Some (d', s') /\ ongoing d d' n /\ sess_ok s' n types cp /\
    addresses_effect d d' n (n_ansn x) (zlen types) l (c_changed s) (c_changed s').
Proof.
  induction l as [|a l IH]; intros d s n x W Hx Hs Wl Nl; cbn [cb_addresses].
  - exists d, s. split; auto. split; [apply ongoing_refl; auto|]. split; auto. constructor; auto.
    + intros m B c s0 H. right. split; auto. intros (_ & b & [] & _).
    + eauto.
    + intros B (b & [] & _).
    + apply atts_put_same; [intros ? ? ?; reflexivity|]. intros K (b & [] & _).
    + apply told_refl.
  - assert (One : exists d1 s1, (if i_ok a then cb_address ds d s a else Some (d, s)) = Some (d1, s1) /\ ongoing d d1 n /\ sess_ok s1 n types cp /\
      address_effect d d1 n (n_ansn x) (zlen types) a (c_changed s) (c_changed s1)).
    { destruct (i_ok a) eqn:Oa.
      - apply (address_ok d s n x a types cp W Hx Hs Oa); [apply Wl; auto; left; auto|]. apply Nl. left; auto.
      - exists d, s. split; auto. split; [apply ongoing_refl; auto|]. split; auto. constructor; auto.
        + intros m B c s0 H. right. split; auto. intros (_ & (Q & _) & _). congruence.
        + eauto.
        + intros (Q & _). congruence.
        + apply atts_put_same; [intros ? ? ?; reflexivity|]. intros K [((Q & _) & _)|(Q & _)]; congruence.
        + apply told_refl. }
    destruct One as (d1 & s1 & -> & O1 & Hs1 & A1). cbn [fst snd]. destruct (og_kept _ _ _ O1 n _ Hx) as (x1 & Hx1 & (Ad1 & Ex1 & _)).
    destruct (IH d1 s1 n x1 (og_wf _ _ _ O1) Hx1 Hs1) as (d2 & s2 & E2 & O2 & Hs2 & A2).
    { intros b I. apply Wl. right; auto. }
    { intros b I. rewrite Ad1. apply Nl. right; auto. }
    rewrite Ex1 in A2. exists d2, s2. split; auto. split; [eapply ongoing_trans; eauto|]. split; auto.
    destruct A1 as [P1 P2 P3 P4 P5 P6]. destruct A2 as [Q1 Q2 Q3 Q4 Q5 Q6]. constructor.
    + intros m B c s0 H. destruct (Q1 _ _ _ _ H) as [(-> & -> & (l1 & b & l2 & E & B1 & B2 & B3 & B4) & T)|(N & H')].
      * left. split; auto. split; auto. split; auto. exists (a :: l1), b, l2. rewrite E. repeat split; auto; try apply B1; apply B3.
      * destruct (P1 _ _ _ _ H') as [(-> & -> & B1 & B2 & B3 & T)|(N' & H'')].
        -- left. split; auto. split; auto. split.
           ++ exists [], a, l. split; [auto|]. split; [auto|]. split; [auto|]. split; [auto|]. intros Q. apply N. auto.
           ++ intros i y Hy Hm. apply Q6. eapply T; eauto.
        -- right. split; auto. intros (-> & b & [<-|I] & B1 & B2); [apply N'; auto|]. apply N. split; auto. exists b; auto.
    + intros m B c s0 N H. apply Q2; [intros (-> & b & I & B1 & B2); apply N; split; auto; exists b; split; [right; auto|auto]|].
      apply P2; auto. intros (-> & B1 & B2). apply N. split; auto. exists a. split; [left; auto|auto].
    + intros m B c H. destruct (P3 _ _ _ H) as (c' & H'). apply (Q3 _ _ _ H').
    + intros B (b & [<-|I] & B1 & B2).
      * destruct (P4 B1) as (c & Hc). rewrite B2 in Hc. apply (Q3 _ _ _ Hc).
      * apply Q4. exists b; auto.
    + eapply atts_put_ext; [|eapply atts_put_trans; [exact P5|exact Q5]]. intros K. unfold lists_prefix, prefix_of. split.
      * intros [H|(b & I & H)]; [exists a; split; [left; auto|auto]|exists b; split; [right; auto|auto]].
      * intros (b & [<-|I] & H); [left; auto|right; exists b; auto].
    + eapply told_trans; eauto.
Qed.

(** * The end of a message *)
Lemma eg_addr d d' n R m y' : edges_gone d d' n R -> d_nodes d' m = Some y' -> (exists x, d_nodes d n = Some x) -> exists y, d_nodes d m = Some y /\ n_addr y' = n_addr y.
Proof.
  intros A Hy (x & Hx). destruct (Z.eq_dec m n) as [->|N].
  - destruct (eg_node _ _ _ _ A _ Hx) as (x' & Hx' & B). exists x. split; auto. rewrite B in Hx'. assert (y' = nd_edges (n_edges x') x) as -> by congruence. reflexivity.
  - destruct (eg_nodes _ _ _ _ A _ _ N Hy) as (y & H1 & C & _). exists y. split; auto. apply (cleaned_valid _ _ C).
Qed.
Lemma link_gone d d' n R m B c s : wf d -> wf d' -> edges_gone d d' n R -> (exists x, d_nodes d n = Some x) ->
  (link d' m B c s <-> exists e y z, d_edges d e = Some y /\ e_src y = m /\ e_virt y = false /\ e_cost y = c /\ e_ansn y = s /\
                d_nodes d (e_dst y) = Some z /\ n_addr z = B /\ R e = false).
Proof.
  intros W W' A Hx. split.
  - intros (e & y & z & H1 & H2 & H3 & H4 & H5 & H6 & H7). destruct (eg_back _ _ _ _ A _ _ H1) as [Q|(y0 & _ & _ & ->)]; [|discriminate].
    destruct (eg_addr _ _ _ _ _ _ A H6 Hx) as (z0 & Hz0 & Q0). exists e, y, z0. repeat split; auto; [congruence|].
    destruct (R e) eqn:Re; auto. pose proof (eg_gone _ _ _ _ A _ _ Re H1). congruence.
  - intros (e & y & z & H1 & H2 & H3 & H4 & H5 & H6 & H7 & H8). pose proof (eg_keep _ _ _ _ A _ _ H1 H3 H8) as Q. destruct (wf_dst _ _ _ W' Q) as (z' & Hz').
    destruct (eg_addr _ _ _ _ _ _ A Hz' Hx) as (z0 & Hz0 & Q0). exists e, y, z'. repeat split; auto. congruence.
Qed.
Lemma attached_gone d d' n R m K s : edges_gone d d' n R -> attached d' m K s -> attached d m K s.
Proof.
  intros A (a & y & p & H1 & H2 & H3 & H4 & H5). apply (eg_atts _ _ _ _ A) in H1. destruct (eg_eps _ _ _ _ A _ _ H4) as (p0 & Hp0 & Q). exists a, y, p0. repeat split; auto. congruence.
Qed.
Lemma attached_stay d d' n R m K s : wf d -> wf d' -> good d (Some n) -> edges_gone d d' n R -> attached d m K s -> attached d' m K s.
Proof.
  intros W W' G A (a & y & p & H1 & H2 & H3 & H4 & H5). destruct (d_atts d' a) as [y'|] eqn:H1'.
  - pose proof (eg_atts _ _ _ _ A _ _ H1') as Q. assert (y' = y) as -> by congruence. destruct (wf_att _ _ _ W' H1') as (_ & p' & Hp'). destruct (eg_eps _ _ _ _ A _ _ Hp') as (p0 & Hp0 & Q0).
    exists a, y, p'. repeat split; auto. congruence.
  - exfalso. destruct (eg_atts_gone _ _ _ _ A _ _ H1 H1') as (N & z & Hz & V). destruct (g_dead _ _ G (a_src y) z ltac:(congruence) Hz V) as (Q & _).
    destruct (wf_att _ _ _ W H1) as ((z' & Hz' & I) & _). assert (z' = z) as -> by congruence. rewrite Q in I. destruct I.
Qed.
Lemma attached_atts_gone d d' n R m K s : wf d' -> atts_gone d d' n R ->
  (attached d' m K s <-> exists a y p, d_atts d a = Some y /\ a_src y = m /\ a_ansn y = s /\ d_eps d (a_dst y) = Some p /\ p_key p = K /\ R a = false).
Proof.
  intros W' A. split.
  - intros (a & y & p & H1 & H2 & H3 & H4 & H5). rewrite (ag_atts _ _ _ _ A) in H1. destruct (R a) eqn:Ra; [discriminate|]. destruct (ag_eps _ _ _ _ A _ _ H4) as (p0 & Hp0 & Q). exists a, y, p0. repeat split; auto. congruence.
  - intros (a & y & p & H1 & H2 & H3 & H4 & H5 & Ra). assert (H1' : d_atts d' a = Some y) by (rewrite (ag_atts _ _ _ _ A), Ra; auto).
    destruct (wf_att _ _ _ W' H1') as (_ & p' & Hp'). destruct (ag_eps _ _ _ _ A _ _ Hp') as (p0 & Hp0 & Q0). exists a, y, p'. repeat split; auto. congruence.
Qed.

Lemma tell_same : forall l i d, d_nodes (tell i l d) = d_nodes d /\ d_tree (tell i l d) = d_tree d /\ d_edges (tell i l d) = d_edges d /\ d_atts (tell i l d) = d_atts d /\
  d_eps (tell i l d) = d_eps d /\ d_eptree (tell i l d) = d_eptree d /\ d_next (tell i l d) = d_next d.
Proof.
  induction l as [|b l IH]; intros i d; cbn [tell]; [repeat split|]. destruct b; [|apply IH]. destruct (IH (i + 1) (changed d (Some i))) as (H1 & H2 & H3 & H4 & H5 & H6 & H7). repeat split; auto.
Qed.
Lemma tell_log : forall l i d, exists t, d_log (tell i l d) = d_log d ++ t /\ forall j, zget l j = Some true -> In (Some (i + j)) t.
Proof.
  induction l as [|b l IH]; intros i d; cbn [tell].
  - exists []. rewrite app_nil_r. split; auto. intros j H. apply zget_bound in H. change (zlen []) with 0 in H. lia.
  - destruct (IH (i + 1) (if b then changed d (Some i) else d)) as (t & Et & Pt).
    exists ((if b then [Some i] else []) ++ t). split.
    + rewrite Et. destruct b; cbn; [rewrite <- app_assoc|]; reflexivity.
    + intros j Hj. pose proof (zget_bound _ _ _ Hj) as Bj. apply in_or_app. destruct (Z.eq_dec j 0) as [->|].
      * change (Some b = Some true) in Hj. injection Hj as ->. left. left. f_equal. lia.
      * right. rewrite zget_shift in Hj by lia. specialize (Pt _ Hj). replace (i + j) with (i + 1 + (j - 1)) by lia. auto.
Qed.
Lemma good_same d d' ex : d_nodes d' = d_nodes d -> d_edges d' = d_edges d -> d_atts d' = d_atts d -> good d ex -> good d' ex.
Proof. intros E1 E2 E3 [G1 G2 G3]. constructor; rewrite ?E1, ?E2, ?E3; auto. Qed.
Lemma zget_firstn {A} (l : list A) k i x : zget l i = Some x -> i < Z.of_nat k -> zget (firstn k l) i = Some x.
Proof.
  revert l i. induction k as [|k IH]; intros [|y l] i H L; pose proof (zget_bound _ _ _ H) as B; try (change (zlen (@nil A)) with 0 in B); try lia.
  cbn [firstn]. destruct (Z.eq_dec i 0) as [->|]; [exact H|]. rewrite zget_shift in H |- * by lia. apply IH; auto. lia.
Qed.

Definition shrunk (d d' : db) : Prop :=
  (forall m x', d_nodes d' m = Some x' -> exists x, d_nodes d m = Some x /\ same_head x x') /\
  (forall m x, d_nodes d m = Some x -> d_nodes d' m = None -> n_valid x = None /\ n_direct x = false).
Lemma shrunk_trans a b c : shrunk a b -> shrunk b c -> shrunk a c.
Proof.
  intros (A1 & A2) (B1 & B2). split.
  - intros m x' Hx'. destruct (B1 _ _ Hx') as (y & Hy & S1). destruct (A1 _ _ Hy) as (x & Hx & S2). exists x. split; auto. eapply same_head_trans; eauto.
  - intros m x Hx Hn. destruct (d_nodes b m) as [y|] eqn:Hy; [|eauto]. destruct (A1 _ _ Hy) as (x0 & Hx0 & (_ & _ & V & D)). assert (x0 = x) as -> by congruence.
    rewrite <- V, <- D. eauto.
Qed.
Lemma shrunk_kept d d' : (forall m, kept d d' m) -> (forall m, d_nodes d m = None -> d_nodes d' m = None) -> shrunk d d'.
Proof.
  intros K N. split.
  - intros m x' Hx'. destruct (d_nodes d m) as [x|] eqn:Hx; [|rewrite N in Hx'; [discriminate|auto]]. exists x. split; auto. destruct (K m _ Hx) as (x2 & Hx2 & S). congruence.
  - intros m x Hx Hn. destruct (K m _ Hx) as (x2 & Hx2 & _). congruence.
Qed.
Lemma shrunk_edges_gone d d' n R x : d_nodes d n = Some x -> edges_gone d d' n R -> shrunk d d'.
Proof.
  intros Hx A. split.
  - intros m y' Hy'. destruct (Z.eq_dec m n) as [->|N].
    + destruct (kept_edges_gone _ _ _ _ A _ Hx) as (x2 & Hx2 & S). exists x. split; auto. congruence.
    + destruct (eg_nodes _ _ _ _ A _ _ N Hy') as (y & Hy & C & _). exists y. split; auto. destruct (cleaned_valid _ _ C) as (C1 & C2 & C3 & C4). repeat split; auto.
  - intros m y Hy Hn. destruct (Z.eq_dec m n) as [->|N]; [|eapply (eg_removed _ _ _ _ A); eauto].
    destruct (kept_edges_gone _ _ _ _ A _ Hy) as (x2 & Hx2 & _). congruence.
Qed.

Record end_effect (d d' : db) (n sq : Z) (ch : list bool) : Prop := {
  ee_wf : wf d';
  ee_kept : kept d d' n;
  ee_shrunk : shrunk d d';
  ee_link : forall m B c s, link d' m B c s <-> link d m B c s /\ (m = n -> s = sq);
  ee_att : forall m K s, attached d' m K s -> attached d m K s /\ (m = n -> s = sq);
  ee_att_stay : good d (Some n) -> forall m K s, attached d m K s -> (m = n -> s = sq) -> attached d' m K s;
  ee_good : good d (Some n) -> (forall x, d_nodes d n = Some x -> n_valid x <> None) -> good d' None;
  ee_log : exists k t, d_log d' = d_log d ++ repeat None k ++ t /\
    (forall B c s, link d n B c s -> s <> sq -> k <> 0%nat) /\ (forall K s, attached d n K s -> good d (Some n) -> s <> sq -> k <> 0%nat) /\
    forall j, zget ch j = Some true -> 0 <= j < zlen ds -> In (Some j) t }.

Lemma end_ok d s n x types cp : wf d -> d_nodes d n = Some x -> sess_ok s n types cp ->
  exists d' s', cb_end ds d s false = Some (d', s') /\ c_node s' = None /\ end_effect d d' n (n_ansn x) (c_changed s).
Proof.
  intros W Hx (S1 & S2 & S3 & S4). unfold cb_end. rewrite S1, Hx. set (sq := n_ansn x).
  destruct (c_nodup _ (wf_c _ W) _ _ Hx) as (ND1 & _).
  set (R := fun e => match d_edges d e with Some y => negb (e_ansn y =? sq) | None => false end).
  set (G := fun d' : db => (exists x', d_nodes d' n = Some x' /\ n_ansn x' = sq) /\ forall e y, d_edges d' e = Some y -> exists y0, d_edges d e = Some y0 /\ e_ansn y = e_ansn y0).
  destruct (each_edge (old_edge n) n R G (n_edges x) d W) as (d1 & E1 & W1 & G1 & A1 & Lg1); auto.
  { split; [exists x; auto|]. intros e y Hy. eauto. }
  { intros e I. apply (c_hooked _ (wf_c _ W)). exists x; auto. }
  { intros d0 e y _ ((x' & Hx' & Sx') & G0) _ Hy _. unfold old_edge. rewrite Hy, Hx', Sx'. destruct (G0 _ _ Hy) as (y0 & Hy0 & Q). unfold R. rewrite Hy0, <- Q. destruct (e_ansn y =? sq); reflexivity. }
  { intros da db S ((x' & Hx' & Sx') & G0) Eg. split.
    - destruct (kept_edges_gone _ _ _ _ Eg _ Hx') as (x2 & Hx2 & (_ & Q & _)). exists x2. split; auto. congruence.
    - intros e y Hy. destruct (eg_back _ _ _ _ Eg _ _ Hy) as [Q|(y0 & Q & _ & ->)]; [auto|]. destruct (G0 _ _ Q) as (y1 & Hy1 & Q1). exists y1. split; auto. }
  rewrite E1. destruct G1 as ((x1 & Hx1 & Sx1) & G1). rewrite Hx1.
  destruct (c_nodup _ (wf_c _ W1) _ _ Hx1) as (_ & ND2).
  set (R2 := fun a => match d_atts d1 a with Some y => negb (a_ansn y =? sq) | None => false end).
  set (G2 := fun d' : db => (exists x', d_nodes d' n = Some x' /\ n_ansn x' = sq) /\ forall a y, d_atts d' a = Some y -> d_atts d1 a = Some y).
  destruct (each_atts (old_att n) n R2 G2 (n_atts x1) d1 W1) as (d2 & E2 & W2 & GG2 & A2 & Lg2); auto.
  { split; [exists x1; auto|]. auto. }
  { intros e I. apply (c_att_n _ (wf_c _ W1)). exists x1; auto. }
  { intros d0 e y _ ((x' & Hx' & Sx') & G0) _ Hy _. unfold old_att. rewrite Hy, Hx', Sx'. unfold R2. rewrite (G0 _ _ Hy). destruct (a_ansn y =? sq); reflexivity. }
  { intros da db S ((x' & Hx' & Sx') & G0) Eg. split.
    - destruct (kept_atts_gone _ _ _ _ n Eg _ Hx') as (x2 & Hx2 & (_ & Q & _)). exists x2. split; auto. congruence.
    - intros a y Hy. rewrite (ag_atts _ _ _ _ Eg) in Hy. destruct (S a); [discriminate|auto]. }
  rewrite E2. destruct GG2 as ((x2 & Hx2 & Sx2) & GG2). rewrite Hx2.
  eexists _, _. split; [reflexivity|]. split; [reflexivity|]. set (L := firstn (length ds) (c_changed s)).
  destruct (tell_same L 0 d2) as (T1 & T2 & T3 & T4 & T5 & T6 & T7). destruct (tell_log L 0 d2) as (t & Tl & Tt).
  assert (W3 : wf (tell 0 L d2)).
  { apply (wf_ext d2); [|lia| |auto].
    - constructor; congruence.
    - destruct (wf_l _ W2) as (L1 & L2). split; [rewrite T4|rewrite T3]; auto. }
  assert (LK : forall m B c s0, link (tell 0 L d2) m B c s0 <-> link d m B c s0 /\ (m = n -> s0 = sq)).
  { intros m B c s0. unfold link at 1. rewrite T3, T1. fold (link d2 m B c s0).
    assert (link d2 m B c s0 <-> link d1 m B c s0) as -> by (apply links_same_nodes; auto; [apply (ag_edges _ _ _ _ A2)|intros k; eapply kept_atts_gone; eauto]).
    rewrite (link_gone d d1 n _ m B c s0 W W1 A1 (ex_intro _ x Hx)). split.
    - intros (e & y & z & H1 & H2 & H3 & H4 & H5 & H6 & H7 & H8). split; [exists e, y, z; repeat split; auto|]. intros ->.
      destruct (wf_src _ _ _ W H1) as (u & Hu & I). rewrite H2, Hx in Hu. injection Hu as <-. apply mem_dec in I. rewrite I in H8. cbn in H8. unfold R in H8. rewrite H1 in H8. rewrite <- H5.
      destruct (Z.eqb_spec (e_ansn y) sq); [auto|discriminate].
    - intros ((e & y & z & H1 & H2 & H3 & H4 & H5 & H6 & H7) & Q). exists e, y, z. repeat split; auto. destruct (existsb (Z.eqb e) (n_edges x)) eqn:M; auto. cbn. unfold R. rewrite H1.
      apply mem_dec in M. destruct (c_hooked _ (wf_c _ W) n e) as (y' & Hy' & Sy); [exists x; auto|]. assert (y' = y) as -> by congruence. rewrite H5, Q by congruence. now rewrite Z.eqb_refl. }
  assert (AT : forall m K s0, attached (tell 0 L d2) m K s0 <-> attached d1 m K s0 /\ (m = n -> s0 = sq)).
  { intros m K s0. unfold attached at 1. rewrite T4, T5. fold (attached d2 m K s0). rewrite (attached_atts_gone d1 d2 n _ m K s0 W2 A2). split.
    - intros (a & y & p & H1 & H2 & H3 & H4 & H5 & H6). split; [exists a, y, p; repeat split; auto|]. intros ->.
      destruct (wf_att _ _ _ W1 H1) as ((u & Hu & I) & _). rewrite H2, Hx1 in Hu. injection Hu as <-. apply mem_dec in I. rewrite I in H6. cbn in H6. unfold R2 in H6. rewrite H1 in H6. rewrite <- H3.
      destruct (Z.eqb_spec (a_ansn y) sq); [auto|discriminate].
    - intros ((a & y & p & H1 & H2 & H3 & H4 & H5) & Q). exists a, y, p. repeat split; auto. destruct (existsb (Z.eqb a) (n_atts x1)) eqn:M; auto. cbn. unfold R2. rewrite H1.
      apply mem_dec in M. destruct (c_att_n _ (wf_c _ W1) n a) as (y' & Hy' & Sy); [exists x1; auto|]. assert (y' = y) as -> by congruence. rewrite H3, Q by congruence. now rewrite Z.eqb_refl. }
  constructor.
  - exact W3.
  - eapply kept_trans; [apply (kept_edges_gone _ _ _ _ A1)|]. eapply kept_trans; [apply (kept_atts_gone _ _ _ _ n A2)|]. apply kept_nodes. auto.
  - eapply shrunk_trans; [eapply shrunk_edges_gone; eauto|]. apply shrunk_kept.
    + intros m. eapply kept_trans; [apply (kept_atts_gone _ _ _ _ m A2)|]. apply kept_nodes. auto.
    + intros m Nm. rewrite T1. rewrite (ag_nodes _ _ _ _ A2); auto. intros ->. congruence.
  - exact LK.
  - intros m K s0 H. apply AT in H. destruct H as (H & Q). split; auto. exact (attached_gone _ _ _ _ _ _ _ A1 H).
  - intros G0 m K s0 H Q. apply AT. split; auto. exact (attached_stay _ _ _ _ _ _ _ W W1 G0 A1 H).
  - intros G0 V. apply (good_same d2); auto.
    pose proof (good_edges_gone _ _ _ _ W A1 G0) as Ga. pose proof (good_atts_gone _ _ _ _ A2 Ga) as [Gb1 Gb2 Gb3]. constructor.
    + intros m y _ Hy Vy. destruct (Z.eq_dec m n) as [->|N]; [|apply Gb1; auto; congruence]. exfalso. apply (V x Hx).
      destruct (kept_edges_gone _ _ _ _ A1 _ Hx) as (u & Hu & (_ & _ & Q1 & _)). destruct (kept_atts_gone _ _ _ _ n A2 _ Hu) as (v & Hv & (_ & _ & Q2 & _)). congruence.
    + intros e y z Hy Vy _ Hz. destruct (Z.eq_dec (e_src y) n) as [Q|N]; [|apply (Gb2 e y z); auto; congruence].
      rewrite Q, Hx2 in Hz. injection Hz as <-. rewrite Sx2. pose proof (wf_dst _ _ _ W2 Hy) as (u & Hu).
      assert (link (tell 0 L d2) n (n_addr u) (e_cost y) (e_ansn y)) as K.
      { exists e, y, u. rewrite T3, T1. repeat split; auto. }
      apply LK in K. apply K. auto.
    + intros a y z Hy _ Hz. destruct (Z.eq_dec (a_src y) n) as [Q|N]; [|apply (Gb3 a y z); auto; congruence].
      rewrite Q, Hx2 in Hz. injection Hz as <-. rewrite Sx2. destruct (wf_att _ _ _ W2 Hy) as (_ & p & Hp).
      assert (attached (tell 0 L d2) n (p_key p) (a_ansn y)) as K.
      { exists a, y, p. rewrite T4, T5. repeat split; auto. }
      apply AT in K. apply K. auto.
  - destruct (eg_log _ _ _ _ A1) as (k1 & K1). destruct (ag_log _ _ _ _ A2) as (k2 & K2). exists (k1 + k2)%nat, t. split; [|split; [|split]].
    + rewrite Tl, K2, K1, repeat_app, <- !app_assoc. reflexivity.
    + intros B c s0 (e & y & z & H1 & H2 & _ & _ & H5 & _) N. destruct (wf_src _ _ _ W H1) as (u & Hu & I). rewrite H2, Hx in Hu. injection Hu as <-.
      assert (longer d d1) as Q by (apply (Lg1 e I); unfold R; rewrite H1, H5; destruct (Z.eqb_spec s0 sq); auto). unfold longer in Q. rewrite K1, app_length, repeat_length in Q. lia.
    + intros K s0 H G0 N. pose proof (attached_stay _ _ _ _ _ _ _ W W1 G0 A1 H) as (a & y & p & H1 & H2 & H3 & _). destruct (wf_att _ _ _ W1 H1) as ((u & Hu & I) & _). rewrite H2, Hx1 in Hu. injection Hu as <-.
      assert (longer d1 d2) as Q by (apply (Lg2 a I); unfold R2; rewrite H1, H3; destruct (Z.eqb_spec s0 sq); auto). unfold longer in Q. rewrite K2, app_length, repeat_length in Q. lia.
    + intros j Hj Bj. specialize (Tt j). rewrite Z.add_0_l in Tt. apply Tt. unfold L. apply zget_firstn; auto. unfold zlen in Bj. lia.
Qed.


(** * The begin of a message *)
Lemma links_addr d d' : wf d -> d_edges d' = d_edges d -> (forall m x, d_nodes d m = Some x -> exists x', d_nodes d' m = Some x' /\ n_addr x' = n_addr x) -> links_same d d'.
Proof.
  intros W E K m B c s. unfold link. rewrite E. split.
  - intros (e & y & z & H1 & H2 & H3 & H4 & H5 & H6 & H7). destruct (wf_dst _ _ _ W H1) as (z0 & Hz0). destruct (K _ _ Hz0) as (z1 & Hz1 & A).
    exists e, y, z0. repeat split; auto. congruence.
  - intros (e & y & z & H1 & H2 & H3 & H4 & H5 & H6 & H7). destruct (K _ _ H6) as (z1 & Hz1 & A). exists e, y, z1. repeat split; auto. congruence.
Qed.
Lemma good_node d d' n ex : good d ex -> ex = None \/ ex = Some n -> (forall m, m <> n -> d_nodes d' m = d_nodes d m) -> d_edges d' = d_edges d -> d_atts d' = d_atts d -> good d' (Some n).
Proof.
  intros [G1 G2 G3] X N E A. assert (forall m, Some m <> Some n -> Some m <> ex /\ m <> n) as Q.
  { intros m H. split; [destruct X as [->| ->]; congruence|congruence]. }
  constructor; rewrite ?E, ?A.
  - intros m x H Hx. apply Q in H. rewrite N in Hx by apply H. apply G1; tauto.
  - intros e y x Hy V H Hx. apply Q in H. rewrite N in Hx by apply H. apply (G2 e y x); tauto.
  - intros e y x Hy H Hx. apply Q in H. rewrite N in Hx by apply H. apply (G3 e y x); tauto.
Qed.

(** node [n] gets another validity time (and ANSN), or is new *)
Record node_set (d d' : db) (n : Z) (x : tnode) : Prop := {
  ns_wf : wf d';
  ns_only : only_nodes d d';
  ns_node : d_nodes d' n = Some x;
  ns_old : match d_nodes d n with Some y => n_addr x = n_addr y /\ n_direct x = n_direct y /\ n_edges x = n_edges y /\ n_atts x = n_atts y
           | None => n_direct x = false /\ n_edges x = [] /\ n_atts x = [] end;
  ns_nodes : forall m, m <> n -> d_nodes d' m = d_nodes d m }.

Lemma node_set_links d d' n x : wf d -> node_set d d' n x -> links_same d d' /\ atts_same d d'.
Proof.
  intros W [N1 (N2 & N3 & N4 & _ & _) N5 N6 N7]. split; [|apply atts_same_eq; auto]. apply links_addr; auto. intros m y Hy. destruct (Z.eq_dec m n) as [->|N].
  - rewrite Hy in N6. exists x. split; auto. apply N6.
  - exists y. rewrite N7; auto.
Qed.

Definition ansns (d : db) : Prop := forall n x, d_nodes d n = Some x -> is_u16 (n_ansn x).
Definition types_list (m : tcmsg) : bytes := match m_types m with None => firstn 1 (map DomModel.d_ext ds) | Some _ => map DomModel.d_ext ds end.

Lemma add_set d m : wf d -> exists d1 n x, node_add d (m_orig m) (m_vtime m) (m_ansn m) = Some (d1, n) /\ node_set d d1 n x /\ n_addr x = m_orig m /\ n_valid x = timer_set (m_vtime m) /\
  (n_ansn x = m_ansn m \/ exists y, d_nodes d n = Some y /\ n_ansn x = n_ansn y) /\
  (forall s, known d (m_orig m) s -> n_ansn x = s) /\ ((exists s, known d (m_orig m) s) \/ n_ansn x = m_ansn m) /\
  (good d None -> m_vtime m <> 0 -> good d1 None).
Proof.
  intros W. destruct (node_add_ok d (m_orig m) (m_vtime m) (m_ansn m) W) as (d1 & n & x & E & W1 & O & _ & Hn & Ax & Ad & Oth). exists d1, n, x.
  assert (NS : node_set d d1 n x).
  { constructor; auto. destruct Ad as [(H1 & H2 & ->)|(y & H1 & H2 & ->)]; rewrite H1; [repeat split|]. destruct (n_valid y); repeat split. }
  assert (V : n_valid x = timer_set (m_vtime m)) by (destruct Ad as [(_ & _ & ->)|(y & _ & _ & ->)]; reflexivity).
  split; auto. split; auto. split; auto. split; auto. split; [|split; [|split]].
  - destruct Ad as [(H1 & H2 & ->)|(y & H1 & H2 & ->)]; [left; reflexivity|]. destruct (n_valid y); [right; exists y; auto|left; reflexivity].
  - intros s (k & z & H1 & H2 & H3 & H4). destruct Ad as [(Q1 & Q2 & ->)|(y & Q1 & Q2 & ->)].
    + exfalso. assert (k <> n) by congruence. pose proof (Oth k ltac:(auto)) as Q. rewrite H1 in Q. apply (c_addr _ (wf_c _ W1) _ _ _ _ Q Hn) in H2; auto.
    + assert (k = n) as -> by (apply (c_addr _ (wf_c _ W) _ _ _ _ H1 Q1); congruence). assert (z = y) as -> by congruence. destruct (n_valid y); [auto|congruence].
  - destruct Ad as [(Q1 & Q2 & ->)|(y & Q1 & Q2 & ->)]; [right; reflexivity|]. destruct (n_valid y) eqn:Vy; [|right; reflexivity]. left. exists (n_ansn y), n, y. repeat split; auto. congruence.
  - intros [G1 G2 G3] T. destruct O as (O1 & O2 & O3 & O4 & O5).
    assert (Vx : n_valid x <> None) by (rewrite V; unfold timer_set; destruct (Z.eqb_spec (m_vtime m) 0); congruence).
    constructor; rewrite ?O1, ?O2.
    + intros k z _ Hz Vz. destruct (Z.eq_dec k n) as [->|N]; [congruence|]. rewrite Oth in Hz by auto. apply (G1 k z); auto. discriminate.
    + intros e y z Hy Vy _ Hz. destruct (Z.eq_dec (e_src y) n) as [Q|N].
      * rewrite Q, Hn in Hz. injection Hz as <-. destruct (wf_src _ _ _ W Hy) as (u & Hu & _). rewrite Q in Hu. destruct Ad as [(Q1 & _)|(v & Q1 & Q2 & ->)]; [congruence|]. assert (u = v) as -> by congruence.
        destruct (n_valid v) eqn:Vv; [apply (G2 e y v); auto; [discriminate|congruence]|]. exfalso. destruct (G1 n v ltac:(discriminate) Q1 Vv) as (_ & Q3 & _). specialize (Q3 e y Hy Q). congruence.
      * rewrite Oth in Hz by auto. apply (G2 e y z); auto. discriminate.
    + intros a y z Hy _ Hz. destruct (Z.eq_dec (a_src y) n) as [Q|N].
      * rewrite Q, Hn in Hz. injection Hz as <-. destruct (wf_att _ _ _ W Hy) as ((u & Hu & I) & _). rewrite Q in Hu. destruct Ad as [(Q1 & _)|(v & Q1 & Q2 & ->)]; [congruence|]. assert (u = v) as -> by congruence.
        destruct (n_valid v) eqn:Vv; [apply (G3 a y v); auto; [discriminate|congruence]|]. exfalso. destruct (G1 n v ltac:(discriminate) Q1 Vv) as (Q3 & _ & _). rewrite Q3 in I. destruct I.
      * rewrite Oth in Hz by auto. apply (G3 a y z); auto. discriminate.
Qed.

Lemma begin_ok d m : wf d -> ansns d -> is_u16 (m_ansn m) -> m_ok m = true ->
  (~ usable m /\ exists s, cb_message ds d m = Some (d, s, false)) \/
  (usable m /\ ~ up_to_date d m /\ exists d1 n x s, cb_message ds d m = Some (d1, s, false) /\ node_set d d1 n x /\ n_addr x = m_orig m /\ n_valid x = timer_set (m_vtime m) /\
     is_u16 (n_ansn x) /\ (forall a, known d (m_orig m) a -> n_ansn x = a) /\ ((exists a, known d (m_orig m) a) \/ n_ansn x = m_ansn m) /\ (good d None -> m_vtime m <> 0 -> good d1 None)) \/
  (usable m /\ up_to_date d m /\ exists d1 n x s, cb_message ds d m = Some (d1, s, true) /\ node_set d d1 n x /\ n_addr x = m_orig m /\ n_valid x = timer_set (m_vtime m) /\ n_ansn x = m_ansn m /\
     sess_ok s n (types_list m) (m_ext m =? 0) /\ (good d None -> good d1 (Some n))).
Proof.
  intros W Us Um Ok1. unfold cb_message. rewrite (DomProofs.process_types_ok ds (m_types m) Ok). fold (types_list m).
  destruct (m_tests m) eqn:Ts; cbn [negb]. 2:{ left. split; [intros (_ & Q & _); congruence|eauto]. }
  destruct ((m_ext m =? 0) || (m_ext m =? 1)) eqn:Ex; cbn [negb]. 2:{ left. split; [intros (_ & _ & Q & _)|eauto]. apply orb_false_iff in Ex. destruct Ex as (E1 & E2). apply Z.eqb_neq in E1, E2. tauto. }
  destruct (m_process m) eqn:Pr; cbn [negb]. 2:{ left. split; [intros (_ & _ & _ & Q); congruence|eauto]. }
  assert (U : usable m). { repeat split; auto. apply orb_true_iff in Ex. rewrite !Z.eqb_eq in Ex. auto. }
  right. destruct (add_set d m W) as (d1 & n & x & E & NS & Ax & Vx & An & Kn & Kx & Gd). rewrite E, (ns_node _ _ _ _ NS).
  assert (Ux : is_u16 (n_ansn x)) by (destruct An as [->|(y & Hy & ->)]; [auto|eapply Us; eauto]).
  assert (Cmp : (if m_ext m =? 0 then seqno_is_smaller (m_ansn m) (n_ansn x) else negb (seqno_is_larger (m_ansn m) (n_ansn x))) = false <-> up_to_date d m).
  { unfold up_to_date. pose proof (CodecProofs.seqno_smaller_correct (m_ansn m) (n_ansn x) Um Ux) as C1. pose proof (CodecProofs.seqno_larger_correct (m_ansn m) (n_ansn x) Um Ux) as C2.
    destruct (m_ext m =? 0).
    - split.
      + intros F s K Q. rewrite (Kn s K) in *. apply C1 in Q. congruence.
      + intros Q. destruct (seqno_is_smaller (m_ansn m) (n_ansn x)) eqn:S0; auto. exfalso. destruct Kx as [(s & K)|Q1].
        * apply (Q s K). rewrite <- (Kn s K). apply C1. reflexivity.
        * rewrite Q1 in S0. unfold seqno_is_smaller in S0. rewrite Z.eqb_refl in S0. discriminate.
    - rewrite negb_false_iff. split.
      + intros Q. destruct Kx as [(s & K)|Q1].
        * exists s. split; auto. rewrite <- (Kn s K). apply C2. auto.
        * rewrite Q1 in Q. exfalso. unfold seqno_is_larger in Q. apply orb_true_iff in Q. rewrite !andb_true_iff in Q. rewrite !Z.ltb_lt in Q. clear - Q. lia.
      + intros (s & K & Q). apply C2. rewrite (Kn s K). auto. }
  destruct (if m_ext m =? 0 then seqno_is_smaller (m_ansn m) (n_ansn x) else negb (seqno_is_larger (m_ansn m) (n_ansn x))) eqn:Dr.
  - left. split; auto. split; [intros Q; apply Cmp in Q; congruence|]. exists d1, n, x. eexists. split; [reflexivity|]. repeat (split; auto).
  - right. split; auto. split; [apply Cmp; auto|].
    destruct (put_node_ok d1 n x (fun x => nd_itime (m_itime m) (nd_valid (timer_set (m_vtime m)) (nd_ansn (m_ansn m) x))) (ns_wf _ _ _ _ NS) (ns_node _ _ _ _ NS) eq_refl) as (d2 & E2 & W2 & D2).
    rewrite E2. exists d2, n, (nd_itime (m_itime m) (nd_valid (timer_set (m_vtime m)) (nd_ansn (m_ansn m) x))). eexists. split; [reflexivity|].
    split; [|split; [auto|split; [auto|split; [auto|split; [repeat split|]]]]].
    + constructor; auto; try rewrite D2.
      * apply (ns_only _ _ _ _ NS).
      * cbn. apply hset_same.
      * pose proof (ns_old _ _ _ _ NS) as Q. destruct (d_nodes d n); auto.
      * intros k N. cbn. rewrite hset_other by auto. apply (ns_nodes _ _ _ _ NS); auto.
    + intros G. apply (good_node d d2 n None); auto; rewrite D2.
      * intros k N. cbn. rewrite hset_other by auto. apply (ns_nodes _ _ _ _ NS); auto.
      * apply (proj1 (ns_only _ _ _ _ NS)).
      * apply (proj1 (proj2 (ns_only _ _ _ _ NS))).
Qed.

Lemma types_len m : zlen (types_list m) = types_of ds m.
Proof.
  unfold types_list, types_of. destruct (m_types m); [apply DomProofs.zlen_map|]. destruct Ok as (L & _). destruct ds as [|a l]; [unfold zlen in L; cbn in L; lia|]. reflexivity.
Qed.

Record msg_effect (d d' : db) (m : tcmsg) (n : Z) : Prop := {
  me_wf : wf d';
  me_node : exists x, d_nodes d' n = Some x /\ n_addr x = m_orig m /\ n_ansn x = m_ansn m /\ n_valid x = timer_set (m_vtime m) /\
    match d_nodes d n with Some y => n_addr y = m_orig m /\ n_direct x = n_direct y | None => n_direct x = false end;
  me_back : forall k x', k <> n -> d_nodes d' k = Some x' -> (exists x, d_nodes d k = Some x /\ same_head x x') \/ (d_nodes d k = None /\ n_ansn x' = 0 /\ n_valid x' = None /\ n_direct x' = false);
  me_gone : forall k x, k <> n -> d_nodes d k = Some x -> d_nodes d' k = None -> n_valid x = None /\ n_direct x = false;
  me_link : forall k B c s, link d' k B c s -> (k = n /\ s = m_ansn m /\ last_costs ds (m_addrs m) B c) \/ (link d k B c s /\ (k = n -> ~ lists_neighbor (m_addrs m) B /\ s = m_ansn m));
  me_keep : forall k B c s, link d k B c s -> (k = n -> ~ lists_neighbor (m_addrs m) B /\ s = m_ansn m) -> link d' k B c s;
  me_new : forall B, lists_neighbor (m_addrs m) B -> exists c, link d' n B c (m_ansn m);
  me_att : forall k K s, attached d' k K s -> (k = n -> s = m_ansn m) /\ ((k = n /\ lists_prefix (types_of ds m) (m_addrs m) K) \/ attached d k K s);
  me_att_new : good d None -> forall K, lists_prefix (types_of ds m) (m_addrs m) K -> attached d' n K (m_ansn m);
  me_att_keep : good d None -> forall k K s, attached d k K s -> (k = n -> s = m_ansn m) -> attached d' k K s;
  me_good : good d None -> m_vtime m <> 0 -> good d' None;
  me_log : exists k t, d_log d' = d_log d ++ repeat None k ++ t /\
    (forall B c s, link d n B c s -> s <> m_ansn m -> ~ lists_neighbor (m_addrs m) B -> k <> 0%nat) /\
    (forall K s, good d None -> attached d n K s -> s <> m_ansn m -> ~ lists_prefix (types_of ds m) (m_addrs m) K -> k <> 0%nat) /\
    forall B c s, link d' n B c s -> lists_neighbor (m_addrs m) B -> forall i x, zget c i = Some x -> x <= METRIC_MAX -> 0 <= i < zlen ds -> In (Some i) t }.

Lemma message_ok d m : wf d -> ansns d -> wf_msg m -> m_ok m = true -> (forall a, announces m a -> i_addr a <> m_orig m) ->
  (~ usable m /\ exists s', forall s, tc_message ds d s m = Some (d, s')) \/
  (usable m /\ ~ up_to_date d m /\ exists d' n x s', (forall s, tc_message ds d s m = Some (d', s')) /\ node_set d d' n x /\ n_addr x = m_orig m /\ n_valid x = timer_set (m_vtime m) /\
     is_u16 (n_ansn x) /\ (forall a, known d (m_orig m) a -> n_ansn x = a) /\ ((exists a, known d (m_orig m) a) \/ n_ansn x = m_ansn m) /\ (good d None -> m_vtime m <> 0 -> good d' None)) \/
  (usable m /\ up_to_date d m /\ exists d' n s', (forall s, tc_message ds d s m = Some (d', s')) /\ c_node s' = None /\ msg_effect d d' m n).
Proof.
  intros W Us (U1 & U2 & U3) Ok1 Na. unfold tc_message. rewrite Ok1.
  destruct (begin_ok d m W Us U1 Ok1) as [(NU & s & E)|[(U & NT & d1 & n & x & s & E & NS & R)|(U & T & d1 & n & x & s & E & NS & Ax & Vx & Sx & Ss & G1)]]; rewrite E.
  - left. split; auto. exists s. intros _. reflexivity.
  - right. left. split; auto. split; auto. exists d1, n, x, s. split; [reflexivity|]. split; auto.
  - right. right. split; auto. split; auto. pose proof (ns_wf _ _ _ _ NS) as W1. pose proof (ns_node _ _ _ _ NS) as Hn1.
    destruct (addresses_ok (types_list m) (m_ext m =? 0) (m_addrs m) d1 s n x W1 Hn1 Ss U3) as (d2 & s2 & E2 & O2 & S2 & A2).
    { intros a I (Oa & b & Hb & Tb). rewrite Ax. apply Na. split; auto. split; auto. exists b; auto. }
    rewrite E2. cbn [fst snd]. destruct (og_kept _ _ _ O2 n _ Hn1) as (x2 & Hn2 & (Ax2 & Sx2 & Vx2 & Dx2)).
    clear E. destruct (end_ok d2 s2 n x2 _ _ (og_wf _ _ _ O2) Hn2 S2) as (d3 & s3 & E3 & C3 & E). rewrite E3.
    exists d3, n, s3. split; [reflexivity|]. split; auto. rewrite Sx2, Sx in E. rewrite Sx in A2. rewrite types_len in A2.
    destruct (node_set_links _ _ _ _ W NS) as (LS & AS).
    destruct (ee_kept _ _ _ _ _ E _ Hn2) as (x3 & Hn3 & (Ax3 & Sx3 & Vx3 & Dx3)). destruct (ee_shrunk _ _ _ _ _ E) as (Sh1 & Sh2).
    assert (GG : good d None -> good d2 (Some n)) by (intros G; apply (og_good _ _ _ O2); auto).
    constructor.
    + apply (ee_wf _ _ _ _ _ E).
    + exists x3. split; auto. split; [congruence|]. split; [congruence|]. split; [congruence|]. pose proof (ns_old _ _ _ _ NS) as Q. destruct (d_nodes d n) as [y|]; [|destruct Q as (Q & _); congruence].
      destruct Q as (Q1 & Q2 & _). split; congruence.
    + intros k x' N Hx'. destruct (Sh1 _ _ Hx') as (y & Hy & (H1 & H2 & H3 & H4)). rewrite <- (ns_nodes _ _ _ _ NS k N). destruct (og_back _ _ _ O2 _ _ Hy) as [(z & Hz & (Q1 & Q2 & Q3 & Q4))|(Q1 & Q2 & Q3 & Q4)].
      * left. exists z. split; auto. repeat split; congruence.
      * right. repeat split; congruence.
    + intros k y N Hy Hg. rewrite <- (ns_nodes _ _ _ _ NS k N) in Hy. destruct (og_kept _ _ _ O2 _ _ Hy) as (z & Hz & (_ & _ & Q1 & Q2)). rewrite <- Q1, <- Q2. eapply Sh2; eauto.
    + intros k B c s0 H. apply (ee_link _ _ _ _ _ E) in H. destruct H as (H & Q). destruct (le_link _ _ _ _ _ _ _ _ A2 _ _ _ _ H) as [(H1 & H2 & H3 & H4)|(H1 & H2)].
      * left. auto.
      * right. split; [apply LS; auto|]. intros ->. split; [intros HL; apply H1; auto|auto].
    + intros k B c s0 H Q. apply (ee_link _ _ _ _ _ E). split; [|intros Hk; apply Q; auto]. apply (le_keep _ _ _ _ _ _ _ _ A2); [|apply LS; auto]. intros (Hk & HL). destruct (Q Hk) as (Q1 & _). auto.
    + intros B HL. destruct (le_new _ _ _ _ _ _ _ _ A2 B HL) as (c & Hc). exists c. apply (ee_link _ _ _ _ _ E). auto.
    + intros k K s0 H. apply (ee_att _ _ _ _ _ E) in H. destruct H as (H & Q). split; auto. apply (le_atts _ _ _ _ _ _ _ _ A2) in H. destruct H as [(H1 & H2 & H3)|(H1 & _)]; [left; auto|right; apply AS; auto].
    + intros G K HL. apply (ee_att_stay _ _ _ _ _ E (GG G)); auto. apply (le_atts _ _ _ _ _ _ _ _ A2). left. auto.
    + intros G k K s0 H Q. apply (ee_att_stay _ _ _ _ _ E (GG G)); auto. apply (le_atts _ _ _ _ _ _ _ _ A2). right. split; [apply AS; auto|auto].
    + intros G V. apply (ee_good _ _ _ _ _ E (GG G)). intros y Hy. assert (y = x2) as -> by congruence. rewrite Vx2, Vx. unfold timer_set. destruct (Z.eqb_spec (m_vtime m) 0); congruence.
    + destruct (ee_log _ _ _ _ _ E) as (k & t & El & K1 & K2 & K3). exists k, t. split; [|split; [|split]].
      * rewrite El, (og_log _ _ _ O2). destruct (ns_only _ _ _ _ NS) as (_ & _ & _ & _ & ->). reflexivity.
      * intros B c s0 H N L. apply (K1 B c s0); auto. apply (le_keep _ _ _ _ _ _ _ _ A2); [|apply LS; auto]. intros (_ & Q); auto.
      * intros K s0 G H N L. apply (K2 K s0); auto. apply (le_atts _ _ _ _ _ _ _ _ A2). right. split; [apply AS; auto|]. intros _ Q. contradiction.
      * intros B c s0 H HL i v Hv Mv Bi. apply K3; auto. apply (ee_link _ _ _ _ _ E) in H. destruct H as (H & _). destruct (le_link _ _ _ _ _ _ _ _ A2 _ _ _ _ H) as [(H1 & H2 & H3 & H4)|(H1 & H2)].
        -- apply (H4 i v); auto.
        -- exfalso. auto.
Qed.

(** * Removal of a node *)
Record node_gone (d d' : db) (n : Z) : Prop := {
  ng_wf : wf d';
  ng_shrunk : shrunk d d';
  ng_link : forall m B c s, link d' m B c s <-> link d m B c s /\ m <> n;
  ng_att : forall m K s, attached d' m K s -> attached d m K s /\ m <> n;
  ng_att_stay : good d (Some n) -> forall m K s, attached d m K s -> m <> n -> attached d' m K s;
  ng_good : good d (Some n) -> good d' None;
  ng_log : exists k, k <> 0%nat /\ d_log d' = d_log d ++ repeat None k }.

Lemma finished_head x y : n_valid x = None -> finished_node x = Some y -> same_head x y /\ n_atts y = [] /\ n_edges y = n_edges x.
Proof. intros V. unfold finished_node. destruct (n_edges x) eqn:E, (n_direct x) eqn:D; intros H; inversion H; subst; repeat split; cbn; auto. Qed.
Lemma finished_none x : finished_node x = None -> n_edges x = [] /\ n_direct x = false.
Proof. unfold finished_node. destruct (n_edges x), (n_direct x); try discriminate; auto. Qed.

Lemma remove_ok d n x : wf d -> d_nodes d n = Some x -> n_valid x = None -> exists d', node_remove d n = Some d' /\ node_gone d d' n.
Proof.
  intros W Hx V. destruct (node_remove_ok d n x W Hx) as (d1 & d' & E & W1 & W' & A & F). exists d'. split; auto.
  destruct (eg_node _ _ _ _ A _ Hx) as (x1 & Hx1 & B1). assert (V1 : n_valid x1 = None) by (rewrite B1; auto). pose proof (head_edges _ _ B1) as Hd1.
  pose proof (fi_node _ _ _ F _ Hx1) as Hn'. pose proof (shrunk_edges_gone _ _ _ _ _ Hx A) as Sh1.
  assert (Sh2 : shrunk d1 d').
  { split.
    - intros m y' Hy'. destruct (Z.eq_dec m n) as [->|N]; [|rewrite (fi_nodes _ _ _ F) in Hy' by auto; exists y'; split; auto using same_head_refl].
      exists x1. split; auto. rewrite Hy' in Hn'. apply (finished_head x1 y' V1). auto.
    - intros m y Hy Hg. destruct (Z.eq_dec m n) as [->|N]; [|rewrite (fi_nodes _ _ _ F) in Hg by auto; congruence].
      assert (y = x1) as -> by congruence. split; auto. rewrite Hg in Hn'. apply finished_none. auto. }
  assert (Sh : shrunk d d') by (eapply shrunk_trans; eauto).
  assert (LK : forall m B c s, link d' m B c s <-> link d m B c s /\ m <> n).
  { intros m B c s. assert (link d' m B c s <-> link d1 m B c s) as ->.
    { unfold link. rewrite (fi_edges _ _ _ F). split; intros (e & y & z & H1 & H2 & H3 & H4 & H5 & H6 & H7); exists e, y.
      - destruct (proj1 Sh2 _ _ H6) as (z0 & Hz0 & (Q & _)). exists z0. repeat split; auto. congruence.
      - rewrite <- (fi_edges _ _ _ F) in H1. destruct (wf_dst _ _ _ W' H1) as (z1 & Hz1). destruct (proj1 Sh2 _ _ Hz1) as (z0 & Hz0 & (Q & _)). rewrite (fi_edges _ _ _ F) in H1. exists z1. repeat split; auto. congruence. }
    rewrite (link_gone d d1 n _ m B c s W W1 A (ex_intro _ x Hx)). split.
    - intros (e & y & z & H1 & H2 & H3 & H4 & H5 & H6 & H7 & H8). split; [exists e, y, z; repeat split; auto|]. intros ->.
      destruct (wf_src _ _ _ W H1) as (u & Hu & I). rewrite H2, Hx in Hu. injection Hu as <-. apply mem_dec in I. congruence.
    - intros ((e & y & z & H1 & H2 & H3 & H4 & H5 & H6 & H7) & Q). exists e, y, z. repeat split; auto. destruct (existsb (Z.eqb e) (n_edges x)) eqn:M; auto. exfalso.
      apply mem_dec in M. destruct (c_hooked _ (wf_c _ W) n e) as (y' & Hy' & Sy); [exists x; auto|]. congruence. }
  constructor; auto.
  - intros m K s (a & y & p & H1 & H2 & H3 & H4 & H5). rewrite (fi_atts _ _ _ F) in H1. destruct (d_atts d1 a) as [y1|] eqn:Ha; [|discriminate]. destruct (Z.eqb_spec (a_src y1) n) as [Q|Q]; [discriminate|].
    injection H1 as ->. split; [|congruence]. apply (attached_gone d d1 n _ m K s A). destruct (fi_eps _ _ _ F _ _ H4) as (p0 & Hp0 & Q0). exists a, y, p0. repeat split; auto. congruence.
  - intros G m K s H N. destruct (attached_stay _ _ _ _ _ _ _ W W1 G A H) as (a & y & p & H1 & H2 & H3 & H4 & H5).
    assert (H1' : d_atts d' a = Some y). { rewrite (fi_atts _ _ _ F), H1. destruct (Z.eqb_spec (a_src y) n); [congruence|auto]. }
    destruct (wf_att _ _ _ W' H1') as (_ & p' & Hp'). destruct (fi_eps _ _ _ F _ _ Hp') as (p0 & Hp0 & Q0). exists a, y, p'. repeat split; auto. congruence.
  - intros G. pose proof (good_edges_gone _ _ _ _ W A G) as [G1 G2 G3].
    assert (RN : forall e y, d_edges d1 e = Some y -> e_src y = n -> e_virt y = true).
    { intros e y Hy Sy. destruct (wf_src _ _ _ W1 Hy) as (u & Hu & I). rewrite Sy in Hu. assert (u = x1) as -> by congruence.
      destruct (existsb (Z.eqb e) (n_edges x)) eqn:M; [apply (eg_gone _ _ _ _ A e y); auto|]. exfalso.
      assert (exists y0, d_edges d e = Some y0 /\ e_src y0 = n) as (y0 & Hy0 & S0) by (destruct (eg_back _ _ _ _ A _ _ Hy) as [Q|(y0 & Q & _ & ->)]; eauto).
      destruct (wf_src _ _ _ W Hy0) as (u & Hu' & I'). rewrite S0 in Hu'. assert (u = x) as -> by congruence. apply mem_dec in I'. congruence. }
    constructor.
    + intros m y _ Hy Vy. rewrite (fi_edges _ _ _ F). destruct (Z.eq_dec m n) as [->|N].
      * rewrite Hy in Hn'. symmetry in Hn'. destruct (finished_head _ _ V1 Hn') as ((_ & _ & _ & D) & At & Ed). split; auto. split; [intros e z He Se; eapply RN; eauto|]. rewrite D, Ed.
        unfold finished_node in Hn'. destruct (n_edges x1); [|right; discriminate]. destruct (n_direct x1); [auto|discriminate].
      * rewrite (fi_nodes _ _ _ F) in Hy by auto. apply (G1 m y); auto. congruence.
    + intros e y z. rewrite (fi_edges _ _ _ F). intros Hy Vy _ Hz. destruct (Z.eq_dec (e_src y) n) as [Q|N]; [rewrite (RN _ _ Hy Q) in Vy; discriminate|].
      rewrite (fi_nodes _ _ _ F) in Hz by auto. apply (G2 e y z); auto. congruence.
    + intros a y z Ha _ Hz. rewrite (fi_atts _ _ _ F) in Ha. destruct (d_atts d1 a) as [y1|] eqn:Ha1; [|discriminate]. destruct (Z.eqb_spec (a_src y1) n) as [Q|Q]; [discriminate|]. injection Ha as ->.
      rewrite (fi_nodes _ _ _ F) in Hz by auto. apply (G3 a y z); auto. congruence.
  - destruct (eg_log _ _ _ _ A) as (k1 & K1). destruct (fi_log _ _ _ F) as ((k2 & K2) & N). exists (k1 + k2)%nat. split; [|rewrite K2, K1, repeat_app, <- app_assoc; reflexivity].
    intros Q. apply N. rewrite K2. assert (k2 = 0%nat) as -> by lia. apply app_nil_r.
Qed.

Lemma tidy_ok d : wf d -> good d None -> tidy d.
Proof.
  intros W [G1 _ _] n x Hx V. destruct (G1 n x ltac:(discriminate) Hx V) as (H1 & H2 & H3). split; [|split].
  - intros B c s (e & y & z & Q1 & Q2 & Q3 & _). rewrite (H2 _ _ Q1 Q2) in Q3. discriminate.
  - intros K s (a & y & p & Q1 & Q2 & _). destruct (wf_att _ _ _ W Q1) as ((u & Hu & I) & _). rewrite Q2 in Hu. assert (u = x) as -> by congruence. rewrite H1 in I. destruct I.
  - destruct H3 as [H3|H3]; [auto|]. right. destruct (n_edges x) as [|e l] eqn:Ee; [congruence|]. destruct (c_hooked _ (wf_c _ W) n e) as (y & Hy & Sy); [exists x; rewrite Ee; split; [auto|left; auto]|].
    destruct (c_inv _ (wf_c _ W) _ _ Hy) as (z & Hz & I1 & I2 & I3 & I4). exists (e_src z), (e_cost z), (e_ansn z), (e_inv y), z, x. repeat split; auto; [apply I4; eapply H2; eauto|]. rewrite I3, Sy. auto.
Qed.

(** * Histories *)
Record inv (w : world) : Prop := {
  i_wf : wf (w_db w);
  i_ansn : ansns (w_db w);
  i_uniq : forall i j a, w_nb w i = Some (Some a) -> w_nb w j = Some (Some a) -> i = j;
  i_nodes : nb_nodes w }.

Lemma direct_at d a n x : wf d -> direct d a -> d_nodes d n = Some x -> n_addr x = a -> n_direct x = true.
Proof. intros W (m & y & H1 & H2 & H3) Hx Ha. assert (m = n) as -> by (apply (c_addr _ (wf_c _ W) _ _ _ _ H1 Hx); congruence). congruence. Qed.
Lemma direct_shrunk d d' a : shrunk d d' -> (direct d' a <-> direct d a).
Proof.
  intros (S1 & S2). split.
  - intros (n & x & H1 & H2 & H3). destruct (S1 _ _ H1) as (y & Hy & (Q1 & _ & _ & Q2)). exists n, y. repeat split; auto; congruence.
  - intros (n & x & H1 & H2 & H3). destruct (d_nodes d' n) as [y|] eqn:Hy.
    + destruct (S1 _ _ Hy) as (z & Hz & (Q1 & _ & _ & Q2)). exists n, y. repeat split; auto; congruence.
    + destruct (S2 _ _ H1 Hy). congruence.
Qed.
Lemma ansns_shrunk d d' : shrunk d d' -> ansns d -> ansns d'.
Proof. intros (S1 & _) U n x Hx. destruct (S1 _ _ Hx) as (y & Hy & (_ & Q & _)). rewrite Q. eauto. Qed.

(** the node [n] is no longer that of a neighbor *)
Lemma put_direct d n x b : wf d -> d_nodes d n = Some x -> exists d', put_node d n (nd_direct b) = Some d' /\ wf d' /\ d' = set_nodes d (hset (d_nodes d) n (Some (nd_direct b x))).
Proof. intros W Hx. apply put_node_ok; auto. Qed.

Record nb_gone (d d' : db) (o : option Z) : Prop := {
  nr_wf : wf d';
  nr_ansn : ansns d -> ansns d';
  nr_direct : forall a, direct d' a <-> direct d a /\ Some a <> o;
  nr_good : good d None -> good d' None;
  nr_link : good d None -> links_same d d';
  nr_att : good d None -> atts_same d d' }.
Lemma nb_remove_ok d o : wf d -> exists d', nb_remove d o = Some d' /\ nb_gone d d' o.
Proof.
  intros W. unfold nb_remove. destruct o as [a|].
  2:{ exists d. split; auto. constructor; auto; [|intros; intros ? ? ? ?; reflexivity|intros; intros ? ? ?; reflexivity]. intros b. split; [intros; split; auto; discriminate|tauto]. }
  destruct (node_get_ok d a W) as (f & E & P). rewrite E. destruct f as [n|].
  2:{ exists d. split; auto. constructor; auto; [|intros; intros ? ? ? ?; reflexivity|intros; intros ? ? ?; reflexivity]. intros b. split; [|tauto]. intros H. split; auto. intros [= ->]. destruct H as (m & y & H1 & H2 & _). eapply P; eauto. }
  destruct P as (x & Hx & Ax). destruct (put_direct d n x false W Hx) as (d1 & E1 & W1 & D1). rewrite E1.
  assert (Hx1 : d_nodes d1 n = Some (nd_direct false x)) by (rewrite D1; cbn; apply hset_same). rewrite Hx1. cbn [nd_direct n_valid].
  assert (Ho1 : forall m, m <> n -> d_nodes d1 m = d_nodes d m) by (intros m N; rewrite D1; cbn; apply hset_other; auto).
  assert (U1 : ansns d -> ansns d1). { intros U m y Hy. destruct (Z.eq_dec m n) as [->|N]; [assert (y = nd_direct false x) as -> by congruence; cbn; eauto|rewrite Ho1 in Hy by auto; eauto]. }
  assert (Dr1 : forall b, direct d1 b <-> direct d b /\ Some b <> Some a).
  { intros b. split.
    - intros (m & y & H1 & H2 & H3). destruct (Z.eq_dec m n) as [->|N]; [assert (y = nd_direct false x) as -> by congruence; discriminate|]. rewrite Ho1 in H1 by auto. split; [exists m, y; auto|].
      intros [= ->]. apply N. apply (c_addr _ (wf_c _ W) _ _ _ _ H1 Hx). congruence.
    - intros ((m & y & H1 & H2 & H3) & N). assert (m <> n) by (intros ->; congruence). exists m, y. rewrite Ho1; auto. }
  assert (G1 : good d None -> good d1 (Some n)) by (intros G; apply (good_node d d1 n None); auto; rewrite D1; auto).
  assert (LS : links_same d d1 /\ atts_same d d1).
  { split; [|apply atts_same_eq; rewrite D1; auto]. apply links_addr; [auto|rewrite D1; auto|]. intros m y Hy. destruct (Z.eq_dec m n) as [->|N]; [|exists y; rewrite Ho1; auto]. eexists. split; [exact Hx1|]. cbn. congruence. }
  destruct (n_valid x) as [vx|] eqn:V.
  - exists d1. split; auto. constructor; auto; [|intros _; apply LS|intros _; apply LS].
    intros G. destruct G as [Ga Gb Gc]. constructor; rewrite ?D1; cbn.
    + intros m y _ Hy Vy. unfold hset in Hy. destruct (Z.eqb_spec m n) as [->|N]; [injection Hy as <-; cbn in Vy; congruence|]. apply (Ga m y); auto; discriminate.
    + intros e y z Hy Vy _ Hz. unfold hset in Hz. destruct (Z.eqb_spec (e_src y) n) as [Q|N]; [injection Hz as <-; cbn; apply (Gb e y x); auto; [discriminate|congruence]|]. apply (Gb e y z); auto; discriminate.
    + intros e y z Hy _ Hz. unfold hset in Hz. destruct (Z.eqb_spec (a_src y) n) as [Q|N]; [injection Hz as <-; cbn; apply (Gc e y x); auto; [discriminate|congruence]|]. apply (Gc e y z); auto; discriminate.
  - destruct (remove_ok d1 n _ W1 Hx1 V) as (d' & E' & N). rewrite E'. exists d'. split; auto. constructor.
    + apply (ng_wf _ _ _ N).
    + intros U. apply (ansns_shrunk d1); auto. apply (ng_shrunk _ _ _ N).
    + intros b. rewrite <- (Dr1 b). apply direct_shrunk. apply (ng_shrunk _ _ _ N).
    + intros G. apply (ng_good _ _ _ N). auto.
    + intros G m B c s. rewrite (ng_link _ _ _ N). destruct LS as (LS & _). rewrite (LS m B c s). split; [tauto|]. intros H. split; auto. intros ->. destruct (tidy_ok d W G n x Hx V) as (Q & _). eapply Q; eauto.
    + intros G m K s. destruct LS as (_ & AS). rewrite <- (AS m K s). split; [intros H; apply (ng_att _ _ _ N) in H; tauto|]. intros H. apply (ng_att_stay _ _ _ N (G1 G)); auto. intros ->. apply AS in H.
      destruct (tidy_ok d W G n x Hx V) as (_ & Q & _). eapply Q; eauto.
Qed.

Record nb_new (d d' : db) (o : option Z) : Prop := {
  nn_wf : wf d';
  nn_ansn : ansns d -> ansns d';
  nn_direct : forall a, direct d' a <-> direct d a \/ Some a = o;
  nn_good : good d None -> good d' None;
  nn_link : good d None -> links_same d d';
  nn_att : good d None -> atts_same d d' }.
Lemma links_same_trans a b c : links_same a b -> links_same b c -> links_same a c.
Proof. intros H1 H2 m B x s. rewrite (H2 m B x s). apply H1. Qed.
Lemma atts_same_trans a b c : atts_same a b -> atts_same b c -> atts_same a c.
Proof. intros H1 H2 m B x. rewrite (H2 m B x). apply H1. Qed.
Lemma nb_change_ok d o : wf d -> exists d', nb_change d o = Some d' /\ nb_new d d' o.
Proof.
  intros W. unfold nb_change. destruct (nb_remove_ok d o W) as (d1 & E & [R1 R2 R3 R4 R5 R6]). rewrite E. destruct o as [a|].
  2:{ exists d1. split; auto. constructor; auto. intros b. rewrite R3. split; [tauto|]. intros [H|H]; [|discriminate]. split; [auto|discriminate]. }
  destruct (node_get_ok d1 a R1) as (f & Ef & P). rewrite Ef.
  assert (exists d2 n x, match f with Some n => Some (d1, n) | None => node_add d1 a 0 0 end = Some (d2, n) /\ wf d2 /\ only_nodes d1 d2 /\ d_nodes d2 n = Some x /\ n_addr x = a /\
    (forall m, m <> n -> d_nodes d2 m = d_nodes d1 m) /\ ((d_nodes d1 n = Some x) \/ (d_nodes d1 n = None /\ x = new_node a 0 0))) as (d2 & n & x & -> & W2 & O2 & Hx2 & Ax & Oth & Cs).
  { destruct f as [n|].
    - destruct P as (x & Hx & Ax). exists d1, n, x. repeat (split; auto).
    - destruct (node_add_ok d1 a 0 0 R1) as (d2 & n & x & E2 & W2 & O2 & _ & Hx2 & Ax & Ad & Oth). exists d2, n, x. split; auto. split; auto. split; auto. split; auto. split; auto. split; auto. right.
      destruct Ad as [(H1 & _ & H2)|(y & H1 & H2 & _)]; [auto|]. exfalso. eapply P; eauto. }
  cbn [fst snd]. destruct (put_direct d2 n x true W2 Hx2) as (d3 & E3 & W3 & D3). rewrite E3. exists d3. split; auto.
  assert (Hx3 : d_nodes d3 n = Some (nd_direct true x)) by (rewrite D3; cbn; apply hset_same).
  assert (Oth3 : forall m, m <> n -> d_nodes d3 m = d_nodes d1 m) by (intros m N; rewrite D3; cbn; rewrite hset_other; auto).
  destruct O2 as (O1 & O2 & O3 & O4 & O5).
  assert (F : d_edges d3 = d_edges d1 /\ d_atts d3 = d_atts d1 /\ d_eps d3 = d_eps d1) by (rewrite D3; auto). destruct F as (F1 & F2 & F3).
  assert (LS : links_same d1 d3). { apply links_addr; auto. intros m y Hy. destruct (Z.eq_dec m n) as [->|N]; [|exists y; rewrite Oth3; auto]. eexists. split; [exact Hx3|]. cbn. destruct Cs as [Q|(Q & _)]; congruence. }
  assert (AS : atts_same d1 d3) by (apply atts_same_eq; auto).
  constructor; auto.
  - intros U. specialize (R2 U). intros m y Hy. destruct (Z.eq_dec m n) as [->|N]; [|rewrite Oth3 in Hy by auto; eauto]. assert (y = nd_direct true x) as -> by congruence. cbn.
    destruct Cs as [Q|(Q & ->)]; [eauto|]. cbn. unfold is_u16. lia.
  - intros b. split.
    + intros (m & y & H1 & H2 & H3). destruct (Z.eq_dec m n) as [->|N]; [right; assert (y = nd_direct true x) as -> by congruence; cbn in H2; congruence|]. rewrite Oth3 in H1 by auto. left.
      assert (direct d1 b) as Q by (exists m, y; auto). apply R3 in Q. tauto.
    + intros H. destruct (Z.eq_dec b a) as [->|N]; [exists n; eexists; split; [exact Hx3|auto]|]. destruct H as [H|H]; [|congruence].
      assert (direct d1 b) as (m & y & H1 & H2 & H3) by (apply R3; split; auto; congruence). assert (m <> n). { intros ->. destruct Cs as [Q|(Q & _)]; congruence. } exists m, y. rewrite Oth3; auto.
  - intros G. destruct (R4 G) as [Ga Gb Gc]. constructor; rewrite ?F1, ?F2.
    + intros m y _ Hy Vy. destruct (Z.eq_dec m n) as [->|N]; [|rewrite Oth3 in Hy by auto; apply (Ga m y); auto; discriminate].
      assert (y = nd_direct true x) as -> by congruence. cbn in *. destruct Cs as [Q|(Q & ->)].
      * destruct (Ga n x ltac:(discriminate) Q Vy) as (H1 & H2 & _). auto.
      * split; [reflexivity|]. split; [|auto]. intros e z Hz Sz. destruct (wf_src _ _ _ R1 Hz) as (u & Hu & _). congruence.
    + intros e y z Hy Vy _ Hz. destruct (Z.eq_dec (e_src y) n) as [Q|N]; [|rewrite Oth3 in Hz by auto; apply (Gb e y z); auto; discriminate].
      rewrite Q in Hz. assert (z = nd_direct true x) as -> by congruence. cbn. destruct (wf_src _ _ _ R1 Hy) as (u & Hu & _). rewrite Q in Hu. destruct Cs as [Q1|(Q1 & _)]; [|congruence].
      apply (Gb e y x); auto; [discriminate|congruence].
    + intros e y z Hy _ Hz. destruct (Z.eq_dec (a_src y) n) as [Q|N]; [|rewrite Oth3 in Hz by auto; apply (Gc e y z); auto; discriminate].
      rewrite Q in Hz. assert (z = nd_direct true x) as -> by congruence. cbn. destruct (wf_att _ _ _ R1 Hy) as ((u & Hu & _) & _). rewrite Q in Hu. destruct Cs as [Q1|(Q1 & _)]; [|congruence].
      apply (Gc e y x); auto; [discriminate|congruence].
  - intros G. eapply links_same_trans; eauto.
  - intros G. eapply atts_same_trans; eauto.
Qed.

Lemma no_node_addresses : forall l d s, c_node s = None -> cb_addresses ds d s l = Some (d, s).
Proof.
  induction l as [|a l IH]; intros d s C; cbn [cb_addresses]; auto. unfold cb_address. rewrite C. destruct (i_ok a); cbn [fst snd]; auto.
Qed.

Lemma node_set_direct d d' n x a : wf d -> node_set d d' n x -> (direct d' a <-> direct d a).
Proof.
  intros W [N1 _ N3 N4 N5]. split.
  - intros (m & y & H1 & H2 & H3). destruct (Z.eq_dec m n) as [->|N]; [|rewrite N5 in H1 by auto; exists m, y; auto]. assert (y = x) as -> by congruence.
    destruct (d_nodes d n) as [z|] eqn:Hz; [|destruct N4; congruence]. destruct N4 as (Q1 & Q2 & _). exists n, z. repeat split; congruence.
  - intros (m & y & H1 & H2 & H3). destruct (Z.eq_dec m n) as [->|N]; [|exists m, y; rewrite N5; auto]. rewrite H1 in N4. destruct N4 as (Q1 & Q2 & _). exists n, x. repeat split; congruence.
Qed.
Lemma msg_direct d d' m n a : msg_effect d d' m n -> (direct d' a <-> direct d a).
Proof.
  intros [_ (x & Hx & Ax & _ & _ & Dx) M3 M4 _ _ _ _ _ _ _ _]. split.
  - intros (k & y & H1 & H2 & H3). destruct (Z.eq_dec k n) as [->|N].
    + assert (y = x) as -> by congruence. destruct (d_nodes d n) as [z|] eqn:Hz; [|congruence]. exists n, z. destruct Dx. repeat split; congruence.
    + destruct (M3 _ _ N H1) as [(z & Hz & (Q1 & _ & _ & Q2))|(_ & _ & _ & Q)]; [|congruence]. exists k, z. repeat split; auto; congruence.
  - intros (k & y & H1 & H2 & H3). destruct (Z.eq_dec k n) as [->|N].
    + rewrite H1 in Dx. destruct Dx. exists n, x. repeat split; congruence.
    + destruct (d_nodes d' k) as [z|] eqn:Hz; [|destruct (M4 _ _ N H1 Hz); congruence]. destruct (M3 _ _ N Hz) as [(u & Hu & (Q1 & _ & _ & Q2))|(Q & _)]; [|congruence]. exists k, z. repeat split; auto; congruence.
Qed.

Lemma inv_db w d s : inv w -> wf d -> ansns d -> (forall a, direct d a <-> direct (w_db w) a) ->
  inv (mkW d s (w_nb w)) /\ (nb_only w -> nb_only (mkW d s (w_nb w))).
Proof.
  intros [I1 I2 I3 I4] W U D. split.
  - constructor; auto. intros i a H. apply D. eapply I4; eauto.
  - intros N a H. apply D in H. apply N. auto.
Qed.

Lemma timer_stopped d n x : wf d -> d_nodes d n = Some x -> exists d1, put_node d n (nd_valid None) = Some d1 /\ node_set d d1 n (nd_valid None x).
Proof.
  intros W Hx. destruct (put_node_ok d n x (nd_valid None) W Hx eq_refl) as (d1 & E & W1 & D). exists d1. split; auto. constructor; auto; rewrite ?D.
  - repeat split.
  - cbn. apply hset_same.
  - rewrite Hx. repeat split.
  - intros m N. cbn. apply hset_other; auto.
Qed.

Lemma step_ok w o : inv w -> safe w o -> exists w', step ds w o = Some w' /\ inv w' /\
  (timed w o -> good (w_db w) None -> good (w_db w') None) /\ (steady w o -> nb_only w -> nb_only w').
Proof.
  intros Hi (Hin & Hs). pose proof (i_wf _ Hi) as W. pose proof (i_ansn _ Hi) as U. destruct o as [m|n|i|i o j|i|p]; cbn [step].
  - cbn in Hin, Hs. destruct (m_ok m) eqn:Om.
    + destruct (message_ok (w_db w) m W U Hin Om Hs) as [(_ & s' & E)|[(_ & _ & d' & n & x & s' & E & NS & Ax & Vx & Ux & _ & _ & G)|(_ & _ & d' & n & s' & E & _ & ME)]]; rewrite E; cbn [fst snd]; eexists; (split; [reflexivity|]).
      * destruct (inv_db w (w_db w) s' Hi W U ltac:(reflexivity)) as (Q1 & Q2). split; auto.
      * destruct (inv_db w d' s' Hi (ns_wf _ _ _ _ NS)) as (Q1 & Q2).
        { intros k y Hy. destruct (Z.eq_dec k n) as [->|N]; [rewrite (ns_node _ _ _ _ NS) in Hy; injection Hy as <-; auto|]. rewrite (ns_nodes _ _ _ _ NS) in Hy by auto. eauto. }
        { intros a. eapply node_set_direct; eauto. }
        split; auto. split; [|auto]. cbn. intros (_ & V) Gd. auto.
      * destruct (inv_db w d' s' Hi (me_wf _ _ _ _ ME)) as (Q1 & Q2).
        { intros k y Hy. destruct (Z.eq_dec k n) as [->|N].
          - destruct (me_node _ _ _ _ ME) as (x & Hx & _ & Q & _). assert (y = x) as -> by congruence. rewrite Q. apply Hin.
          - destruct (me_back _ _ _ _ ME _ _ N Hy) as [(z & Hz & (_ & Q & _))|(_ & Q & _)]; rewrite Q; [eauto|unfold is_u16; lia]. }
        { intros a. eapply msg_direct; eauto. }
        split; auto. split; [|auto]. cbn. intros (_ & V) Gd. apply (me_good _ _ _ _ ME); auto.
    + destruct (c_node (w_sess w)) eqn:C; [destruct Hs|]. unfold tc_message. rewrite Om, no_node_addresses by auto. cbn [fst snd]. unfold cb_end. rewrite C. cbn [fst snd]. eexists. split; [reflexivity|].
      destruct (inv_db w (w_db w) (w_sess w) Hi W U ltac:(reflexivity)) as (Q1 & Q2). split; auto.
  - cbn in Hin. destruct Hin as (x & Hx & V). destruct (timer_stopped _ _ _ W Hx) as (d1 & E1 & NS). rewrite E1.
    destruct (remove_ok d1 n _ (ns_wf _ _ _ _ NS) (ns_node _ _ _ _ NS) eq_refl) as (d' & E' & NG). rewrite E'. eexists. split; [reflexivity|].
    destruct (inv_db w d' (w_sess w) Hi (ng_wf _ _ _ NG)) as (Q1 & Q2).
    { apply (ansns_shrunk d1); [apply (ng_shrunk _ _ _ NG)|]. intros k y Hy. destruct (Z.eq_dec k n) as [->|N]; [rewrite (ns_node _ _ _ _ NS) in Hy; injection Hy as <-; cbn; eauto|]. rewrite (ns_nodes _ _ _ _ NS) in Hy by auto. eauto. }
    { intros a. rewrite (direct_shrunk d1 d' a (ng_shrunk _ _ _ NG)). eapply node_set_direct; eauto. }
    split; auto. split; [|auto]. intros _ G. apply (ng_good _ _ _ NG). destruct (ns_only _ _ _ _ NS) as (O1 & O2 & _). apply (good_node (w_db w) d1 n None); auto. apply (ns_nodes _ _ _ _ NS).
  - cbn in Hin. eexists. split; [reflexivity|]. destruct Hi as [I1 I2 I3 I4]. split; [constructor; auto|split; auto].
    + cbn. intros k l a. unfold hset. destruct (k =? i), (l =? i); try discriminate. eauto.
    + intros k a. cbn. unfold hset. destruct (k =? i); [discriminate|]. apply I4.
    + intros _ N a H. destruct (N a H) as (k & Hk). exists k. cbn. rewrite hset_other; auto. congruence.
  - cbn in Hin. destruct Hin as (Hnb & Hj). destruct (w_nb w i) as [old|] eqn:Ho; [|congruence]. destruct (same_orig old o) eqn:So.
    { exists w. split; auto. }
    destruct (nb_change_ok (w_db w) o W) as (d' & E' & NN). rewrite E'. eexists. split; [reflexivity|].
    set (nb := match j with Some j => hset (w_nb w) j (Some None) | None => w_nb w end). destruct Hi as [I1 I2 I3 I4].
    assert (Sub : forall k a, nb k = Some (Some a) -> w_nb w k = Some (Some a)).
    { intros k a. unfold nb. destruct j as [j|]; auto. unfold hset. destruct (k =? j); [discriminate|auto]. }
    assert (Un : forall k a, k <> i -> nb k = Some (Some a) -> Some a <> o).
    { intros k a N Hk Q. subst o. pose proof (Sub _ _ Hk) as Hk'. unfold nb in Hk. destruct j as [j|].
      - destruct Hj as (J1 & J2 & J3). assert (k = j) as -> by eauto. rewrite hset_same in Hk. discriminate.
      - destruct Hj as [Hj|Hj]; [discriminate|]. apply (Hj k N). auto. }
    assert (Bk : forall k a, w_nb w k = Some (Some a) -> nb k = Some (Some a) \/ Some a = o).
    { intros k a Hk. unfold nb. destruct j as [j|]; auto. unfold hset. destruct (Z.eqb_spec k j) as [->|]; auto. destruct Hj as (J1 & J2 & J3). right. congruence. }
    split; [constructor|split].
    + apply (nn_wf _ _ _ NN).
    + apply (nn_ansn _ _ _ NN); auto.
    + cbn. intros k l a. unfold hset. destruct (Z.eqb_spec k i) as [->|Nk], (Z.eqb_spec l i) as [->|Nl]; auto.
      * intros [= ->] Hl. exfalso. eapply Un; eauto.
      * intros Hk [= ->]. exfalso. eapply Un; eauto.
      * intros Hk Hl. eapply I3; eauto.
    + intros k a. cbn. unfold hset. intros Hk. apply (nn_direct _ _ _ NN). destruct (Z.eqb_spec k i) as [->|Nk]; [right; congruence|]. left. eapply I4; eauto.
    + intros _ G. apply (nn_good _ _ _ NN); auto.
    + intros (_ & St) N a H. cbn in St. apply (nn_direct _ _ _ NN) in H. cbn.
      assert (Oo : old = None). { destruct St as [Q|Q]; [congruence|]. assert (old = o) as -> by congruence. destruct o; cbn in So; [rewrite Z.eqb_refl in So|]; discriminate. }
      assert (H' : Some a = o \/ exists k, nb k = Some (Some a)). { destruct H as [H|H]; [|auto]. destruct (N a H) as (k & Hk). destruct (Bk k a Hk); eauto. }
      destruct H' as [H'|(k & Hk)]; [exists i; rewrite hset_same; congruence|]. exists k. rewrite hset_other; auto. intros ->. apply Sub in Hk. congruence.
  - cbn in Hin. destruct (w_nb w i) as [old|] eqn:Ho; [|congruence]. destruct (nb_remove_ok (w_db w) old W) as (d' & E' & NR). rewrite E'. eexists. split; [reflexivity|]. destruct Hi as [I1 I2 I3 I4]. split; [constructor|split].
    + apply (nr_wf _ _ _ NR).
    + apply (nr_ansn _ _ _ NR); auto.
    + cbn. intros k l a. unfold hset. destruct (k =? i), (l =? i); try discriminate. eauto.
    + intros k a. cbn. unfold hset. destruct (Z.eqb_spec k i) as [->|Nk]; [discriminate|]. intros Hk. apply (nr_direct _ _ _ NR). split; [eapply I4; eauto|]. intros Q. apply Nk. apply (I3 k i a); congruence.
    + intros _ G. apply (nr_good _ _ _ NR); auto.
    + intros _ N a H. apply (nr_direct _ _ _ NR) in H. destruct H as (H & Q). destruct (N a H) as (k & Hk). exists k. cbn. rewrite hset_other; auto. intros ->. congruence.
  - cbn in Hin, Hs. destruct (d_eps (w_db w) p) as [x|] eqn:Hp; [|congruence]. specialize (Hs x eq_refl). assert (1 <? zlen (p_atts x) = false) as -> by (apply Z.ltb_ge; lia). exists w. split; auto.
Qed.

Lemma init_inv : inv init /\ good empty_db None /\ nb_only init.
Proof.
  split; [|split].
  - constructor; try discriminate.
    + constructor.
      * constructor; cbn; try discriminate; try (split; [constructor|intros; split; [intros []|congruence]]).
        -- intros n e (x & H & _). discriminate.
        -- intros n e (x & H & _). discriminate.
        -- intros n e (x & H & _). discriminate.
      * intros i _. repeat split.
      * split; discriminate.
  - constructor; discriminate.
  - intros a (n & x & H & _). discriminate.
Qed.
Lemma run_inv (G : world -> op -> Prop) : (forall w o, G w o -> safe w o) -> forall ops w, inv w -> guarded G ds w ops -> exists w', run ds w ops = Some w' /\ inv w' /\
  ((forall w o, G w o -> timed w o) -> good (w_db w) None -> good (w_db w') None) /\ ((forall w o, G w o -> steady w o) -> nb_only w -> nb_only w').
Proof.
  intros GS. induction ops as [|o ops IH]; intros w I H; cbn [run].
  - exists w. repeat (split; auto).
  - destruct H as (H1 & H2). destruct (step_ok w o I (GS _ _ H1)) as (w1 & E & I1 & G1 & N1). rewrite E in *. destruct (IH w1 I1 H2) as (w2 & E2 & I2 & G2 & N2). exists w2. repeat (split; auto).
Qed.
End Domains.

(** * Content by address *)
Lemma link_src d n B c s : wf d -> link d n B c s -> exists x, d_nodes d n = Some x.
Proof. intros W (e & y & z & H1 & H2 & _). destruct (wf_src _ _ _ W H1) as (u & Hu & _). exists u. congruence. Qed.
Lemma att_src d n K s : wf d -> attached d n K s -> exists x, d_nodes d n = Some x.
Proof. intros W (e & y & z & H1 & H2 & _). destruct (wf_att _ _ _ W H1) as ((u & Hu & _) & _). exists u. congruence. Qed.
Lemma announced_at d n x B c : wf d -> d_nodes d n = Some x -> (announced d (n_addr x) B c <-> exists s, link d n B c s).
Proof.
  intros W Hx. split.
  - intros (m & y & s & H1 & H2 & H3). exists s. assert (m = n) as -> by (apply (c_addr _ (wf_c _ W) _ _ _ _ H1 Hx H2)). auto.
  - intros (s & H). exists n, x, s. auto.
Qed.
Lemma prefix_at d n x K : wf d -> d_nodes d n = Some x -> (prefix d (n_addr x) K <-> exists s, attached d n K s).
Proof.
  intros W Hx. split.
  - intros (m & y & s & H1 & H2 & H3). exists s. assert (m = n) as -> by (apply (c_addr _ (wf_c _ W) _ _ _ _ H1 Hx H2)). auto.
  - intros (s & H). exists n, x, s. auto.
Qed.
Lemma known_at d n x a : wf d -> d_nodes d n = Some x -> (known d (n_addr x) a <-> n_valid x <> None /\ n_ansn x = a).
Proof.
  intros W Hx. split.
  - intros (m & y & H1 & H2 & H3). assert (m = n) as -> by (apply (c_addr _ (wf_c _ W) _ _ _ _ H1 Hx H2)). assert (y = x) as -> by congruence. auto.
  - intros H. exists n, x. tauto.
Qed.
Lemma link_good d n x B c s : good d None -> d_nodes d n = Some x -> link d n B c s -> n_valid x <> None /\ s = n_ansn x.
Proof.
  intros [G1 G2 _] Hx (e & y & z & H1 & H2 & H3 & H4 & H5 & _). split.
  - intros V. destruct (G1 n x ltac:(discriminate) Hx V) as (_ & Q & _). rewrite (Q _ _ H1 H2) in H3. discriminate.
  - rewrite <- H5. apply (G2 e y x); auto; [discriminate|congruence].
Qed.
Lemma att_good d n x K s : wf d -> good d None -> d_nodes d n = Some x -> attached d n K s -> n_valid x <> None /\ s = n_ansn x.
Proof.
  intros W [G1 _ G3] Hx (e & y & z & H1 & H2 & H3 & _). split.
  - intros V. destruct (G1 n x ltac:(discriminate) Hx V) as (Q & _). destruct (wf_att _ _ _ W H1) as ((u & Hu & I) & _). rewrite H2 in Hu. assert (u = x) as -> by congruence. rewrite Q in I. destruct I.
  - rewrite <- H3. apply (G3 e y x); auto; [discriminate|congruence].
Qed.

Section Accepted.
Variables (ds : list DomModel.dom) (d d' : db) (m : tcmsg) (n : Z).
Hypotheses (W : wf d) (G : good d None) (M : msg_effect ds d d' m n).

Lemma acc_node k x : k <> n -> d_nodes d k = Some x -> n_addr x <> m_orig m \/ d_nodes d' k = None.
Proof.
  intros N Hx. destruct (d_nodes d' k) as [x'|] eqn:Hk; [|auto]. left. destruct (me_back _ _ _ _ _ M _ _ N Hk) as [(y & Hy & (Q & _))|(Q & _)]; [|congruence].
  intros E. apply N. destruct (me_node _ _ _ _ _ M) as (z & Hz & Az & _). apply (c_addr _ (wf_c _ (me_wf _ _ _ _ _ M)) _ _ _ _ Hk Hz). congruence.
Qed.
Lemma acc_same k x x' : k <> n -> d_nodes d k = Some x -> d_nodes d' k = Some x' -> n_addr x' = n_addr x.
Proof. intros N H1 H2. destruct (me_back _ _ _ _ _ M _ _ N H2) as [(y & Hy & (Q & _))|(Q & _)]; congruence. Qed.
Lemma acc_n x : d_nodes d n = Some x -> n_addr x = m_orig m.
Proof. intros H. destruct (me_node _ _ _ _ _ M) as (z & _ & _ & _ & _ & Q). rewrite H in Q. apply Q. Qed.

Lemma acc_others A B c : A <> m_orig m -> (announced d' A B c <-> announced d A B c).
Proof.
  intros NA. pose proof (me_wf _ _ _ _ _ M) as W'. split.
  - intros (k & x' & s & H1 & H2 & H3). assert (N : k <> n). { intros ->. destruct (me_node _ _ _ _ _ M) as (z & Hz & Az & _). congruence. }
    destruct (me_link _ _ _ _ _ M _ _ _ _ H3) as [(Q & _)|(Q & _)]; [congruence|]. destruct (link_src _ _ _ _ _ W Q) as (x & Hx). exists k, x, s. repeat split; auto. rewrite <- (acc_same k x x' N Hx H1). auto.
  - intros (k & x & s & H1 & H2 & H3). assert (N : k <> n). { intros ->. apply NA. rewrite <- H2. apply acc_n. auto. }
    pose proof (me_keep _ _ _ _ _ M _ _ _ _ H3 ltac:(congruence)) as H3'. destruct (link_src _ _ _ _ _ W' H3') as (x' & Hx'). exists k, x', s. repeat split; auto. rewrite (acc_same k x x' N H1 Hx'). auto.
Qed.
Lemma acc_others_prefix A K : A <> m_orig m -> (prefix d' A K <-> prefix d A K).
Proof.
  intros NA. pose proof (me_wf _ _ _ _ _ M) as W'. split.
  - intros (k & x' & s & H1 & H2 & H3). assert (N : k <> n). { intros ->. destruct (me_node _ _ _ _ _ M) as (z & Hz & Az & _). congruence. }
    destruct (me_att _ _ _ _ _ M _ _ _ H3) as (_ & [(Q & _)|Q]); [congruence|]. destruct (att_src _ _ _ _ W Q) as (x & Hx). exists k, x, s. repeat split; auto. rewrite <- (acc_same k x x' N Hx H1). auto.
  - intros (k & x & s & H1 & H2 & H3). assert (N : k <> n). { intros ->. apply NA. rewrite <- H2. apply acc_n. auto. }
    pose proof (me_att_keep _ _ _ _ _ M G _ _ _ H3 ltac:(congruence)) as H3'. destruct (att_src _ _ _ _ W' H3') as (x' & Hx'). exists k, x', s. repeat split; auto. rewrite (acc_same k x x' N H1 Hx'). auto.
Qed.
(** what the originator announced with this ANSN *)
Lemma acc_was B c : announced d (m_orig m) B c /\ known d (m_orig m) (m_ansn m) <-> link d n B c (m_ansn m).
Proof.
  pose proof (me_wf _ _ _ _ _ M) as W'. split.
  - intros ((k & x & s & H1 & H2 & H3) & Kn). rewrite <- H2 in Kn. apply (known_at d k x _ W H1) in Kn. destruct (link_good _ _ _ _ _ _ G H1 H3) as (_ & ->). destruct Kn as (_ & Q). rewrite Q in H3.
    destruct (Z.eq_dec k n) as [->|N]; auto. exfalso. destruct (acc_node k x N H1) as [|Q1]; [auto|]. pose proof (me_keep _ _ _ _ _ M _ _ _ _ H3 ltac:(congruence)) as H3'. destruct (link_src _ _ _ _ _ W' H3') as (x' & Hx'). congruence.
  - intros H. destruct (link_src _ _ _ _ _ W H) as (x & Hx). destruct (link_good _ _ _ _ _ _ G Hx H) as (V & Q). rewrite <- (acc_n x Hx). split; [apply (announced_at d n x B c W Hx); eauto|]. apply (known_at d n x _ W Hx). auto.
Qed.
Lemma acc_was_prefix K : prefix d (m_orig m) K /\ known d (m_orig m) (m_ansn m) <-> attached d n K (m_ansn m).
Proof.
  pose proof (me_wf _ _ _ _ _ M) as W'. split.
  - intros ((k & x & s & H1 & H2 & H3) & Kn). rewrite <- H2 in Kn. apply (known_at d k x _ W H1) in Kn. destruct (att_good _ _ _ _ _ W G H1 H3) as (_ & ->). destruct Kn as (_ & Q). rewrite Q in H3.
    destruct (Z.eq_dec k n) as [->|N]; auto. exfalso. destruct (acc_node k x N H1) as [|Q1]; [auto|]. pose proof (me_att_keep _ _ _ _ _ M G _ _ _ H3 ltac:(congruence)) as H3'. destruct (att_src _ _ _ _ W' H3') as (x' & Hx'). congruence.
  - intros H. destruct (att_src _ _ _ _ W H) as (x & Hx). destruct (att_good _ _ _ _ _ W G Hx H) as (V & Q). rewrite <- (acc_n x Hx). split; [apply (prefix_at d n x K W Hx); eauto|]. apply (known_at d n x _ W Hx). auto.
Qed.
Lemma acc_before B c : announced d (m_orig m) B c -> exists s, link d n B c s.
Proof.
  intros (k & x & s & H1 & H2 & H3). exists s. destruct (Z.eq_dec k n) as [->|N]; auto. exfalso. destruct (acc_node k x N H1) as [|Q1]; [auto|].
  pose proof (me_keep _ _ _ _ _ M _ _ _ _ H3 ltac:(congruence)) as H3'. destruct (link_src _ _ _ _ _ (me_wf _ _ _ _ _ M) H3') as (x' & Hx'). congruence.
Qed.
Lemma acc_before_prefix K : prefix d (m_orig m) K -> exists s, attached d n K s.
Proof.
  intros (k & x & s & H1 & H2 & H3). exists s. destruct (Z.eq_dec k n) as [->|N]; auto. exfalso. destruct (acc_node k x N H1) as [|Q1]; [auto|].
  pose proof (me_att_keep _ _ _ _ _ M G _ _ _ H3 ltac:(congruence)) as H3'. destruct (att_src _ _ _ _ (me_wf _ _ _ _ _ M) H3') as (x' & Hx'). congruence.
Qed.
Lemma acc_own B c : announced d' (m_orig m) B c <-> link d' n B c (m_ansn m).
Proof.
  destruct (me_node _ _ _ _ _ M) as (z & Hz & Az & _). rewrite <- Az at 1. rewrite (announced_at d' n z B c (me_wf _ _ _ _ _ M) Hz). split; [|eauto].
  intros (s & H). destruct (me_link _ _ _ _ _ M _ _ _ _ H) as [(_ & Q & _)|(_ & Q)]; [congruence|]. destruct (Q eq_refl) as (_ & <-). auto.
Qed.
Lemma acc_own_prefix K : prefix d' (m_orig m) K <-> attached d' n K (m_ansn m).
Proof.
  destruct (me_node _ _ _ _ _ M) as (z & Hz & Az & _). rewrite <- Az at 1. rewrite (prefix_at d' n z K (me_wf _ _ _ _ _ M) Hz). split; [|eauto].
  intros (s & H). destruct (me_att _ _ _ _ _ M _ _ _ H) as (Q & _). rewrite (Q eq_refl) in H. auto.
Qed.
Lemma acc_listed B : lists_neighbor (m_addrs m) B -> (exists c, announced d' (m_orig m) B c) /\ forall c, announced d' (m_orig m) B c -> last_costs ds (m_addrs m) B c.
Proof.
  intros L. split.
  - destruct (me_new _ _ _ _ _ M B L) as (c & H). exists c. apply acc_own. auto.
  - intros c H. apply acc_own in H. destruct (me_link _ _ _ _ _ M _ _ _ _ H) as [(_ & _ & Q)|(_ & Q)]; [auto|]. exfalso. destruct (Q eq_refl). auto.
Qed.
Lemma acc_unlisted B c : ~ lists_neighbor (m_addrs m) B -> (announced d' (m_orig m) B c <-> announced d (m_orig m) B c /\ known d (m_orig m) (m_ansn m)).
Proof.
  intros L. rewrite acc_own, acc_was. split.
  - intros H. destruct (me_link _ _ _ _ _ M _ _ _ _ H) as [(_ & _ & l1 & a & l2 & Q1 & Q2 & Q3 & _)|(Q & _)]; [|auto]. exfalso. apply L. exists a. split; auto. rewrite Q1. apply in_or_app. right. left. auto.
  - intros H. apply (me_keep _ _ _ _ _ M); auto.
Qed.
Lemma acc_prefix K : prefix d' (m_orig m) K <-> lists_prefix (types_of ds m) (m_addrs m) K \/ (prefix d (m_orig m) K /\ known d (m_orig m) (m_ansn m)).
Proof.
  rewrite acc_own_prefix, acc_was_prefix. split.
  - intros H. destruct (me_att _ _ _ _ _ M _ _ _ H) as (_ & [(_ & Q)|Q]); auto.
  - intros [H|H]; [apply (me_att_new _ _ _ _ _ M); auto|apply (me_att_keep _ _ _ _ _ M); auto].
Qed.
Lemma acc_known a s : m_vtime m <> 0 -> (known d' a s <-> (a = m_orig m /\ s = m_ansn m) \/ (a <> m_orig m /\ known d a s)).
Proof.
  intros V. pose proof (me_wf _ _ _ _ _ M) as W'. destruct (me_node _ _ _ _ _ M) as (z & Hz & Az & Sz & Vz & _).
  assert (Vz' : n_valid z <> None) by (rewrite Vz; unfold timer_set; destruct (Z.eqb_spec (m_vtime m) 0); congruence).
  destruct (Z.eq_dec a (m_orig m)) as [->|N].
  - rewrite <- Az at 1. rewrite (known_at d' n z s W' Hz), Sz. split; [intros (_ & <-); auto|]. intros [(_ & ->)|(Q & _)]; [auto|congruence].
  - split.
    + intros (k & y & H1 & H2 & H3 & H4). right. split; auto. assert (Nk : k <> n) by (intros ->; congruence).
      destruct (me_back _ _ _ _ _ M _ _ Nk H1) as [(x & Hx & (Q1 & Q2 & Q3 & _))|(_ & _ & Q & _)]; [|congruence]. exists k, x. repeat split; congruence.
    + intros [(Q & _)|(_ & k & x & H1 & H2 & H3 & H4)]; [congruence|]. assert (Nk : k <> n) by (intros ->; apply N; rewrite <- H2; apply acc_n; auto).
      destruct (d_nodes d' k) as [y|] eqn:Hy; [|destruct (me_gone _ _ _ _ _ M _ _ Nk H1 Hy); congruence].
      destruct (me_back _ _ _ _ _ M _ _ Nk Hy) as [(x0 & Hx0 & (Q1 & Q2 & Q3 & _))|(Q & _)]; [|congruence]. exists k, y. repeat split; congruence.
Qed.
End Accepted.

(** outdated *)
Lemma set_announced d d' n x A B c : wf d -> node_set d d' n x -> (announced d' A B c <-> announced d A B c).
Proof.
  intros W NS. destruct (node_set_links _ _ _ _ W NS) as (LS & _). pose proof (ns_wf _ _ _ _ NS) as W'.
  assert (K : forall k y y', d_nodes d k = Some y -> d_nodes d' k = Some y' -> n_addr y' = n_addr y).
  { intros k y y' H1 H2. destruct (Z.eq_dec k n) as [->|N]; [|rewrite (ns_nodes _ _ _ _ NS) in H2 by auto; congruence]. rewrite (ns_node _ _ _ _ NS) in H2. injection H2 as <-. pose proof (ns_old _ _ _ _ NS) as Q. rewrite H1 in Q. apply Q. }
  split; intros (k & y & s & H1 & H2 & H3).
  - apply LS in H3. destruct (link_src _ _ _ _ _ W H3) as (x0 & Hx0). exists k, x0, s. repeat split; auto. rewrite <- (K k x0 y); auto.
  - apply LS in H3. destruct (link_src _ _ _ _ _ W' H3) as (x0 & Hx0). exists k, x0, s. repeat split; auto. rewrite (K k y x0); auto.
Qed.
Lemma set_prefix d d' n x A B : wf d -> node_set d d' n x -> (prefix d' A B <-> prefix d A B).
Proof.
  intros W NS. destruct (node_set_links _ _ _ _ W NS) as (_ & LS). pose proof (ns_wf _ _ _ _ NS) as W'.
  assert (K : forall k y y', d_nodes d k = Some y -> d_nodes d' k = Some y' -> n_addr y' = n_addr y).
  { intros k y y' H1 H2. destruct (Z.eq_dec k n) as [->|N]; [|rewrite (ns_nodes _ _ _ _ NS) in H2 by auto; congruence]. rewrite (ns_node _ _ _ _ NS) in H2. injection H2 as <-. pose proof (ns_old _ _ _ _ NS) as Q. rewrite H1 in Q. apply Q. }
  split; intros (k & y & s & H1 & H2 & H3).
  - apply LS in H3. destruct (att_src _ _ _ _ W H3) as (x0 & Hx0). exists k, x0, s. repeat split; auto. rewrite <- (K k x0 y); auto.
  - apply LS in H3. destruct (att_src _ _ _ _ W' H3) as (x0 & Hx0). exists k, x0, s. repeat split; auto. rewrite (K k y x0); auto.
Qed.
Lemma set_known d d' n x a s : wf d -> node_set d d' n x -> a <> n_addr x -> (known d' a s <-> known d a s).
Proof.
  intros W NS N. split; intros (k & y & H1 & H2 & H3).
  - destruct (Z.eq_dec k n) as [->|Nk]; [rewrite (ns_node _ _ _ _ NS) in H1; congruence|]. rewrite (ns_nodes _ _ _ _ NS) in H1 by auto. exists k, y. auto.
  - destruct (Z.eq_dec k n) as [->|Nk]; [pose proof (ns_old _ _ _ _ NS) as Q; rewrite H1 in Q; destruct Q; congruence|]. exists k, y. rewrite (ns_nodes _ _ _ _ NS); auto.
Qed.

(** removed *)
Section Removed.
Variables (d d' : db) (n : Z) (x : tnode).
Hypotheses (W : wf d) (Hx : d_nodes d n = Some x) (NG : node_gone d d' n).
Lemma gone_back k y' : d_nodes d' k = Some y' -> exists y, d_nodes d k = Some y /\ same_head y y'.
Proof. apply (ng_shrunk _ _ _ NG). Qed.
Lemma gone_announced A B c : announced d' A B c <-> announced d A B c /\ A <> n_addr x.
Proof.
  pose proof (ng_wf _ _ _ NG) as W'. split.
  - intros (k & y & s & H1 & H2 & H3). apply (ng_link _ _ _ NG) in H3. destruct H3 as (H3 & N). destruct (gone_back _ _ H1) as (z & Hz & (Q & _)). split.
    + exists k, z, s. repeat split; auto. congruence.
    + intros E. apply N. apply (c_addr _ (wf_c _ W) _ _ _ _ Hz Hx). congruence.
  - intros ((k & y & s & H1 & H2 & H3) & N). assert (Nk : k <> n) by (intros ->; congruence).
    assert (H3' : link d' k B c s) by (apply (ng_link _ _ _ NG); auto). destruct (link_src _ _ _ _ _ W' H3') as (y' & Hy'). destruct (gone_back _ _ Hy') as (z & Hz & (Q & _)). exists k, y', s. repeat split; auto. congruence.
Qed.
Lemma gone_prefix A K : good d (Some n) -> (prefix d' A K <-> prefix d A K /\ A <> n_addr x).
Proof.
  intros G. pose proof (ng_wf _ _ _ NG) as W'. split.
  - intros (k & y & s & H1 & H2 & H3). apply (ng_att _ _ _ NG) in H3. destruct H3 as (H3 & N). destruct (gone_back _ _ H1) as (z & Hz & (Q & _)). split.
    + exists k, z, s. repeat split; auto. congruence.
    + intros E. apply N. apply (c_addr _ (wf_c _ W) _ _ _ _ Hz Hx). congruence.
  - intros ((k & y & s & H1 & H2 & H3) & N). assert (Nk : k <> n) by (intros ->; congruence).
    assert (H3' : attached d' k K s) by (apply (ng_att_stay _ _ _ NG); auto). destruct (att_src _ _ _ _ W' H3') as (y' & Hy'). destruct (gone_back _ _ Hy') as (z & Hz & (Q & _)). exists k, y', s. repeat split; auto. congruence.
Qed.
Lemma gone_known a s : n_valid x = None -> (known d' a s <-> known d a s).
Proof.
  intros V. split; intros (k & y & H1 & H2 & H3 & H4).
  - destruct (gone_back _ _ H1) as (z & Hz & (Q1 & Q2 & Q3 & _)). exists k, z. repeat split; congruence.
  - destruct (d_nodes d' k) as [z|] eqn:Hz.
    + destruct (gone_back _ _ Hz) as (u & Hu & (Q1 & Q2 & Q3 & _)). exists k, z. repeat split; congruence.
    + destruct (proj2 (ng_shrunk _ _ _ NG) _ _ H1 Hz). congruence.
Qed.
End Removed.

Lemma stopped_known d d1 n x a s : wf d -> d_nodes d n = Some x -> node_set d d1 n (nd_valid None x) -> (known d1 a s <-> known d a s /\ a <> n_addr x).
Proof.
  intros W Hx NS. split.
  - intros (k & y & H1 & H2 & H3 & H4). destruct (Z.eq_dec k n) as [->|N]; [rewrite (ns_node _ _ _ _ NS) in H1; injection H1 as <-; cbn in H3; congruence|]. rewrite (ns_nodes _ _ _ _ NS) in H1 by auto. split; [exists k, y; auto|].
    intros E. apply N. apply (c_addr _ (wf_c _ W) _ _ _ _ H1 Hx). congruence.
  - intros ((k & y & H1 & H2 & H3 & H4) & N). assert (k <> n) by (intros ->; congruence). exists k, y. rewrite (ns_nodes _ _ _ _ NS); auto.
Qed.
Lemma unused_ok ds w m : inv w -> safe w (Message m) -> m_ok m = false -> DomSpec.doms_ok ds -> exists s, tc_message ds (w_db w) (w_sess w) m = Some (w_db w, s).
Proof.
  intros I (_ & S) Om D. rewrite Om in S. destruct (c_node (w_sess w)) eqn:C; [destruct S|]. unfold tc_message. rewrite Om, no_node_addresses by auto. cbn [fst snd]. unfold cb_end. rewrite C. eauto.
Qed.
