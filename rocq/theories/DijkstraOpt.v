(** Proofs about the route calculation, part 2: one run finds the cheapest
    paths. *)
From Coq Require Import Sorting.Sorted.
From Verif Require Import Base DijkstraModel DijkstraSpec DijkstraProofs.

Lemma u8_u8_add x y : u8 (u8 x + y) = u8 (x + y).
Proof. unfold u8. now rewrite Zplus_mod_idemp_l. Qed.

(** A dijkstra node which shows a way. *)
Definition shows (d : dnode) (w : way) : Prop :=
  d_cost d = w_cost w /\ d_hops d = u8 (w_hops w) /\ d_dist d = w_dist w /\
  d_first d = Some (w_first w) /\ d_single d = (w_hops w =? 1) /\ d_last d = w_last w.

(** Arguments of a route update which describe a way. *)
Definition offers (o : rargs) (w : way) : Prop :=
  ra_first o = w_first w /\ ra_cost o = w_cost w /\ ra_hops o = u8 (w_hops w) /\
  ra_dist o = w_dist w /\ ra_single o = (w_hops w =? 1) /\ ra_last o = w_last w.

Section Opt.
  Context (ev : env) (tp : topo) (nbs : list neigh) (af : Z) (ss : bool).
  Context (TK : topo_ok ev tp) (NK : neighs_ok nbs).

  Let P := path ev tp nbs af true ss.
  Definition reach (t : target) : Prop := exists w, P t w.
  Definition cheapest (t : target) (w : way) : Prop :=
    P t w /\ forall w', P t w' -> w_cost w <= w_cost w'.

  Context (FIT : forall a w, P (TNode a) w ->
             exists w', P (TNode a) w' /\ w_cost w' <= 4294967295 - METRIC_MAX).

  Context (s0 : dstate).
  Context (FRESH : forall t, reach t -> d_done (dn s0 t) = false).
  Context (LOC : forall a, In a (map tn_orig (tp_nodes tp)) ->
                   d_local (dn s0 (TNode a)) = own_node ev a).
  Context (LOCE : forall k, d_local (dn s0 (TEnd k)) = false).

  Lemma link_cost_pos node t c d : In node (tp_nodes tp) ->
    link ev true ss node t c d -> 0 <= c <= METRIC_MAX.
  Proof.
    intros Hn L. destruct L as [e He V C O W|a Ha C W].
    - pose proof (tk_edge ev tp TK node e Hn He) as (H & _). lia.
    - pose proof (tk_att ev tp TK node a Hn Ha) as (H & _). lia.
  Qed.

  Lemma path_facts t w : P t w -> 1 <= w_hops w /\ 0 <= w_cost w.
  Proof.
    unfold P. induction 1 as [nb F|node t c d w Hn HP IH L]; cbn [w_hops w_cost].
    - destruct F as (F & _). pose proof (NK nb F). lia.
    - pose proof (link_cost_pos node t c d Hn L). lia.
  Qed.

  Lemma reach_node a : reach (TNode a) ->
    In a (map tn_orig (tp_nodes tp)) /\ own_node ev a = false.
  Proof.
    intros (w & H). unfold P in H. remember (TNode a) as t eqn:E.
    destruct H as [nb F|node t c d w Hn HP L].
    - injection E as <-. destruct F as (_ & _ & _ & _ & _ & O & n & Hn & En & _).
      split; [|exact O]. rewrite <- En. now apply in_map.
    - destruct L as [e He V C O W|x Ha C W]; [|discriminate]. injection E as <-.
      split; [|exact O]. apply (tk_edge ev tp TK node e Hn He).
  Qed.

  Lemma reach_local t : reach t -> d_local (dn s0 t) = false.
  Proof.
    intros R. destruct t as [a|k]; [|apply LOCE].
    destruct (reach_node a R) as [H1 H2]. now rewrite LOC.
  Qed.

  Definition light (t : target) : bool :=
    match t with TNode _ => false | TEnd k => negb (1 <? att_count tp k) end.

  Definition covered (s : dstate) (t : target) (c : Z) : Prop :=
    d_done (dn s t) = true \/ (In t (wq s) /\ d_cost (dn s t) <= c).

  Definition mono (s s' : dstate) : Prop :=
    (forall t c, reach t -> covered s t c -> covered s' t c) /\
    (forall t, d_done (dn s t) = true -> dn s' t = dn s t).

  Lemma mono_refl s : mono s s.
  Proof. now split. Qed.
  Lemma mono_trans a b c : mono a b -> mono b c -> mono a c.
  Proof.
    intros [C1 D1] [C2 D2]. split; [auto|].
    intros t H. rewrite <- (D1 t H). apply D2. now rewrite (D1 t H).
  Qed.

  Definition offer (o : rargs) : Prop :=
    exists t w, P t w /\ ra_key o = key_of ev t /\ offers o w.

  Record inv (s : dstate) : Prop := {
    i_sorted : sorted_wq (dn s) (wq s);
    i_wq : forall t, In t (wq s) -> exists w, P t w /\ shows (dn s t) w;
    i_done : forall t, reach t -> d_done (dn s t) = true -> light t = false ->
      exists w, cheapest t w /\ shows (dn s t) w;
    i_local : forall t, d_local (dn s t) = d_local (dn s0 t);
    i_rest : forall t, ~ reach t -> dn s t = dn s0 t;
    i_off : exists os, rt s = fold_left (update_routing_entry ev) os (rt s0) /\ Forall offer os /\
      forall t, reach t -> d_done (dn s t) = true ->
        exists o w, In o os /\ ra_key o = key_of ev t /\ cheapest t w /\ ra_cost o = w_cost w }.

  (** One call of _insert_into_working_tree along a usable link. *)
  Lemma relax_inv s t nb lc pc ph h dist single last :
    inv s -> P t (Way nb (pc + lc) (h + 1) dist last) ->
    0 <= pc + lc < 4294967296 -> lc <= METRIC_MAX -> ph = u8 h -> single = (h + 1 =? 1) ->
    let s' := insert_into_working_tree s t nb lc pc ph dist single last in
    inv s' /\ mono s s' /\ covered s' t (pc + lc).
  Proof.
    intros I HP B LM Eh Es. cbv zeta.
    pose proof (relax_cases s t nb lc pc ph dist single last) as RC. cbv zeta in RC.
    set (s' := insert_into_working_tree s t nb lc pc ph dist single last) in *. clearbody s'.
    assert (R : reach t) by (eexists; exact HP).
    assert (U : u32 (pc + lc) = pc + lc) by (apply u32_id; exact B).
    assert (LF : d_local (dn s t) = false) by (rewrite (i_local s I); now apply reach_local).
    destruct RC as [[E W]|(_ & _ & Dd & LT & Edn & Ewq & Ert & _ & SO)].
    - rewrite E. split; [exact I|]. split; [apply mono_refl|].
      destruct W as [W|[W|[W|[W1 W2]]]]; [lia|congruence|now left|right].
      split; [exact W1|lia].
    - rewrite U in *. set (nd := DNode _ _ _ _ _ _ _ _) in Edn.
      assert (SH : shows nd (Way nb (pc + lc) (h + 1) dist last)).
      { unfold nd. repeat split; cbn; [|now subst single].
        subst ph. apply u8_u8_add. }
      split; [|split].
      + constructor.
        * apply SO, I.
        * intros x Hx. rewrite Edn. destruct (target_eq_dec x t) as [->|N].
          -- rewrite set_dn_same. eexists; split; [exact HP|exact SH].
          -- rewrite set_dn_other by exact N. apply (i_wq s I).
             apply Ewq in Hx as [->|Hx]; [contradiction|exact Hx].
        * intros x Rx. rewrite Edn. destruct (target_eq_dec x t) as [->|N].
          -- rewrite set_dn_same. discriminate.
          -- rewrite set_dn_other by exact N. now apply (i_done s I).
        * intros x. rewrite Edn. destruct (target_eq_dec x t) as [->|N].
          -- rewrite set_dn_same. cbn. symmetry. now rewrite <- (i_local s I).
          -- rewrite set_dn_other by exact N. apply (i_local s I).
        * intros x Nx. rewrite Edn, set_dn_other by (intros ->; contradiction).
          now apply (i_rest s I).
        * destruct (i_off s I) as (os & E1 & E2 & E3). exists os. rewrite Ert.
          split; [exact E1|]. split; [exact E2|].
          intros x Rx. rewrite Edn. destruct (target_eq_dec x t) as [->|N].
          -- rewrite set_dn_same. discriminate.
          -- rewrite set_dn_other by exact N. now apply E3.
      + split.
        * intros x c _ [C|[C1 C2]].
          -- left. rewrite Edn. destruct (target_eq_dec x t) as [->|N]; [congruence|].
             now rewrite set_dn_other.
          -- right. split; [apply Ewq; now right|]. rewrite Edn.
             destruct (target_eq_dec x t) as [->|N].
             ++ rewrite set_dn_same. cbn. specialize (LT C1). lia.
             ++ now rewrite set_dn_other.
        * intros x Dx. rewrite Edn. apply set_dn_other. intros ->. congruence.
      + right. split; [apply Ewq; now left|]. rewrite Edn, set_dn_same. cbn. lia.
  Qed.

  (** A call along a link to a router of our own does nothing. *)
  Lemma relax_own s a nb lc pc ph dist single last :
    inv s -> In a (map tn_orig (tp_nodes tp)) -> own_node ev a = true ->
    insert_into_working_tree s (TNode a) nb lc pc ph dist single last = s.
  Proof.
    intros I Ha O. unfold insert_into_working_tree.
    destruct (METRIC_MAX <? lc); [reflexivity|].
    rewrite (i_local s I), (LOC a Ha), O. reflexivity.
  Qed.

  Lemma fold_cover {A} (f : dstate -> A -> dstate) (cov : dstate -> A -> Prop) l :
    (forall s x, In x l -> inv s -> inv (f s x) /\ mono s (f s x) /\ cov (f s x) x) ->
    (forall s s' x, mono s s' -> cov s x -> cov s' x) ->
    forall s, inv s -> inv (fold_left f l s) /\ mono s (fold_left f l s) /\
      forall x, In x l -> cov (fold_left f l s) x.
  Proof.
    intros H M. induction l as [|y l IH]; intros s I; cbn [fold_left].
    - split; [exact I|]. split; [apply mono_refl|intros x []].
    - destruct (H s y (or_introl eq_refl) I) as (I1 & M1 & C1).
      destruct (IH (fun s x Hx => H s x (or_intror Hx)) (f s y) I1) as (I2 & M2 & C2).
      split; [exact I2|]. split; [eapply mono_trans; eauto|].
      intros x [->|Hx]; [eapply M; eauto|auto].
  Qed.

  (** The direct neighbors. *)
  Lemma one_hop_inv s : inv s ->
    let s' := add_one_hop_nodes ev tp nbs af true ss s in
    inv s' /\ mono s s' /\
    forall nb, first_hop ev tp nbs af true ss nb -> covered s' (TNode (nb_orig nb)) (nb_out nb).
  Proof.
    intros I. cbv zeta.
    destruct (fold_cover (add_one_hop_node ev tp af true ss)
      (fun s nb => first_hop ev tp nbs af true ss nb -> covered s (TNode (nb_orig nb)) (nb_out nb)) nbs)
      with (s := s) as (I' & M' & C'); [| |exact I|].
    - clear s I. intros s nb Hnb I. unfold add_one_hop_node.
      destruct (Z.eqb_spec (ev_fam ev (nb_orig nb)) af) as [E|E]; cbn [negb];
        [|split; [exact I|split; [apply mono_refl|]]; intros (_ & H & _); contradiction].
      destruct (Z.eqb_spec (nb_sym nb) 0) as [Z0|Z0];
        [split; [exact I|split; [apply mono_refl|]]; intros (_ & _ & H & _); contradiction|].
      destruct (find_node tp (nb_orig nb)) as [node|] eqn:F.
      2:{ split; [exact I|split; [apply mono_refl|]].
          intros (_ & _ & _ & _ & _ & _ & n & Hn & En & _).
          apply (find_node_unique ev tp TK) in Hn. rewrite En in Hn. congruence. }
      cbn [negb andb].
      apply find_some in F as [F1 F2]. apply Z.eqb_eq in F2.
      destruct (Z.ltb_spec METRIC_MAX (nb_in nb)) as [L1|L1]; cbn [orb];
        [split; [exact I|split; [apply mono_refl|]]; intros (_ & _ & _ & H & _); lia|].
      destruct (Z.ltb_spec METRIC_MAX (nb_out nb)) as [L2|L2];
        [split; [exact I|split; [apply mono_refl|]]; intros (_ & _ & _ & _ & H & _); lia|].
      destruct (own_node ev (nb_orig nb)) eqn:O.
      + rewrite relax_own; [|exact I|rewrite <- F2; now apply in_map|exact O].
        split; [exact I|split; [apply mono_refl|]]. intros (_ & _ & _ & _ & _ & H & _); congruence.
      + assert (FH : first_hop ev tp nbs af true ss nb).
        { repeat (split; [assumption|]). exists node. auto. }
        pose proof (NK nb Hnb) as [Pos _].
        destruct (relax_inv s (TNode (nb_orig nb)) nb (nb_out nb) 0 0 0 0 true (ev_originator ev af))
          as (I1 & M1 & C1); auto.
        * apply path_first, FH.
        * unfold METRIC_MAX in L2. lia.
    - intros s1 s2 nb M C FH. apply M; [|auto]. exists (Way nb (nb_out nb) 1 0 (ev_originator ev af)).
      now apply path_first.
    - split; [exact I'|]. split; [exact M'|]. intros nb FH. apply C'; [apply FH|exact FH].
  Qed.

  (** An endpoint with one attachment is only reached over this. *)
  Lemma att_unique n1 n2 a1 a2 : In n1 (tp_nodes tp) -> In n2 (tp_nodes tp) ->
    In a1 (tn_atts n1) -> In a2 (tn_atts n2) -> a_dst a1 = a_dst a2 ->
    att_count tp (a_dst a1) <= 1 -> n1 = n2 /\ a1 = a2.
  Proof.
    unfold att_count, zlen. set (k := a_dst a1). intros H1 H2 A1 A2 E.
    assert (K1 : (a_dst a1 =? k) = true) by (apply Z.eqb_refl).
    assert (K2 : (a_dst a2 =? k) = true) by (apply Z.eqb_eq; now unfold k).
    clearbody k. clear E.
    assert (ONE : forall l a, In a l -> (a_dst a =? k) = true ->
              (1 <= length (filter (fun a => Z.eqb (a_dst a) k) l))%nat).
    { intros l a Ha Ka. assert (In a (filter (fun a => a_dst a =? k) l)) by (now apply filter_In).
      destruct (filter (fun a => a_dst a =? k) l); [contradiction|cbn; lia]. }
    clear LOC. revert H1 H2. induction (tp_nodes tp) as [|n l IH]; cbn [In flat_map]; [tauto|].
    rewrite filter_app, app_length. intros H1 H2 LE.
    assert (FM : forall m, In m l -> forall a, In a (tn_atts m) -> In a (flat_map tn_atts l)).
    { intros m Hm a Ha. apply in_flat_map. eauto. }
    destruct H1 as [<-|H1], H2 as [<-|H2].
    - split; [reflexivity|].
      assert (I1 : In a1 (filter (fun a => a_dst a =? k) (tn_atts n))) by (now apply filter_In).
      assert (I2 : In a2 (filter (fun a => a_dst a =? k) (tn_atts n))) by (now apply filter_In).
      destruct (filter (fun a => a_dst a =? k) (tn_atts n)) as [|x [|y q]]; [easy| |cbn in LE; lia].
      destruct I1 as [<-|[]], I2 as [<-|[]]. reflexivity.
    - pose proof (ONE _ _ A1 K1). pose proof (ONE _ _ (FM _ H2 _ A2) K2). lia.
    - pose proof (ONE _ _ A2 K2). pose proof (ONE _ _ (FM _ H1 _ A1) K1). lia.
    - apply IH; auto. lia.
  Qed.

  Definition closed (s : dstate) (node : tc_node) : Prop :=
    forall t c d, link ev true ss node t c d ->
      covered s t (d_cost (dn s (TNode (tn_orig node))) + c).

  Section Node.
    Context (node : tc_node) (w : way) (d : dnode).
    Context (HN : In node (tp_nodes tp)) (CW : cheapest (TNode (tn_orig node)) w) (SD : shows d w).

    Lemma node_bound : 0 <= w_cost w <= 4294967295 - METRIC_MAX /\ 1 <= w_hops w.
    Proof.
      destruct CW as [HP MIN]. destruct (FIT _ _ HP) as (w' & HP' & B).
      pose proof (MIN w' HP'). pose proof (path_facts _ _ HP). lia.
    Qed.

    Lemma edge_inv s e : In e (tn_edges node) -> inv s ->
      let s' := handle_edge true ev node d (w_first w) s e in
      inv s' /\ mono s s' /\
      (forall c x, link ev true ss node (TNode (e_dst e)) c x -> c = e_cost e ->
         e_virtual e = false -> e_cost e <= METRIC_MAX ->
         covered s' (TNode (e_dst e)) (w_cost w + e_cost e)).
    Proof.
      intros He I. cbv zeta. unfold handle_edge. cbn [negb andb].
      destruct (e_virtual e) eqn:V; cbn [negb andb].
      { split; [exact I|split; [apply mono_refl|discriminate]]. }
      destruct (Z.leb_spec (e_cost e) METRIC_MAX) as [L|L].
      2:{ split; [exact I|split; [apply mono_refl|lia]]. }
      pose proof (tk_edge ev tp TK node e HN He) as (Pos & Hd & _).
      destruct (own_node ev (e_dst e)) eqn:O.
      - rewrite relax_own; [|exact I|exact Hd|exact O].
        split; [exact I|split; [apply mono_refl|]].
        intros c x LK _ _ _. remember (TNode (e_dst e)) as t eqn:Et.
        destruct LK as [e' He' V' C' O' W'|a Ha C' W']; [|discriminate]. injection Et as Et.
        rewrite Et in O'. congruence.
      - destruct SD as (S1 & S2 & S3 & S4 & S5 & S6).
        pose proof node_bound as [B H1].
        destruct (relax_inv s (TNode (e_dst e)) (w_first w) (e_cost e) (d_cost d) (d_hops d)
                    (w_hops w) 0 false (ev_dst ev (ev_host ev (tn_orig node)))) as (I1 & M1 & C1); auto.
        + rewrite S1. apply path_link; [exact HN|apply CW|].
          apply link_edge; auto.
        + rewrite S1. lia.
        + symmetry. apply Z.eqb_neq. lia.
        + split; [exact I1|]. split; [exact M1|]. intros. rewrite <- S1. exact C1.
    Qed.

    Lemma att_inv s a : In a (tn_atts node) -> inv s ->
      let s' := handle_att true ss ev tp node d (w_first w) s a in
      inv s' /\ mono s s' /\
      (a_cost a <= METRIC_MAX -> wanted_key ev true ss (a_dst a) = true ->
       covered s' (TEnd (a_dst a)) (w_cost w + a_cost a)).
    Proof.
      intros Ha I. cbv zeta. unfold handle_att.
      destruct (Z.leb_spec (a_cost a) METRIC_MAX) as [L|L].
      2:{ split; [exact I|split; [apply mono_refl|lia]]. }
      destruct (if 0 <? ev_srclen ev (a_dst a) then ss else true) eqn:W; cbn [negb].
      2:{ split; [exact I|split; [apply mono_refl|]]. unfold wanted_key. intros _ H. congruence. }
      pose proof (tk_att ev tp TK node a HN Ha) as (Pos & Hd).
      destruct SD as (S1 & S2 & S3 & S4 & S5 & S6).
      pose proof node_bound as [B H1].
      assert (HP : P (TEnd (a_dst a))
                (Way (w_first w) (w_cost w + a_cost a) (w_hops w + 1) (a_dist a)
                   (ev_dst ev (ev_host ev (tn_orig node))))).
      { apply path_link; [exact HN|apply CW|]. apply link_att; auto. }
      assert (R : reach (TEnd (a_dst a))) by (eexists; exact HP).
      destruct (Z.ltb_spec 1 (att_count tp (a_dst a))) as [C|C].
      - destruct (relax_inv s (TEnd (a_dst a)) (w_first w) (a_cost a) (d_cost d) (d_hops d)
                    (w_hops w) (a_dist a) false (ev_dst ev (ev_host ev (tn_orig node))))
          as (I1 & M1 & C1); auto.
        + now rewrite S1.
        + rewrite S1. lia.
        + symmetry. apply Z.eqb_neq. lia.
        + split; [exact I1|]. split; [exact M1|]. intros. rewrite <- S1. exact C1.
      - set (t := TEnd (a_dst a)) in *. set (n := dn s t).
        set (nd := DNode (d_cost n) (d_hops n) (d_dist n) (d_first n) (d_single n) (d_last n)
                     (d_local n) true).
        assert (LT : light t = true) by (cbn; destruct (Z.ltb_spec 1 (att_count tp (a_dst a))); [lia|reflexivity]).
        assert (CH : cheapest t (Way (w_first w) (w_cost w + a_cost a) (w_hops w + 1) (a_dist a)
                   (ev_dst ev (ev_host ev (tn_orig node))))).
        { split; [exact HP|]. intros w' HP'. unfold P in HP'. remember t as t' eqn:Et.
          destruct HP' as [nb F|node' t' c' d' w' Hn' HP' L']; [discriminate|].
          destruct L' as [e He V' C' O' W'|a' Ha' C' W']; [discriminate|].
          unfold t in Et. injection Et as Et.
          destruct (att_unique node node' a a') as [<- <-]; auto.
          cbn [w_cost]. pose proof (proj2 CW w' HP'). lia. }
        split; [|split].
        + constructor; cbn [dn wq rt].
          * apply (sorted_wq_ext (dn s)); [|apply I].
            intros x _. destruct (target_eq_dec x t) as [->|N].
            -- rewrite set_dn_same. reflexivity.
            -- now rewrite set_dn_other.
          * intros x Hx. destruct (target_eq_dec x t) as [->|N].
            -- rewrite set_dn_same. destruct (i_wq s I t Hx) as (w' & P' & S'). exists w'. split; [exact P'|].
               exact S'.
            -- rewrite set_dn_other by exact N. now apply (i_wq s I).
          * intros x Rx. destruct (target_eq_dec x t) as [->|N]; [congruence|].
            rewrite set_dn_other by exact N. now apply (i_done s I).
          * intros x. destruct (target_eq_dec x t) as [->|N].
            -- rewrite set_dn_same. apply (i_local s I).
            -- rewrite set_dn_other by exact N. apply (i_local s I).
          * intros x Nx. rewrite set_dn_other by (intros ->; contradiction). now apply (i_rest s I).
          * destruct (i_off s I) as (os & E1 & E2 & E3).
            set (o := RArgs _ _ _ _ _ _ _ _).
            exists (os ++ [o]). rewrite fold_left_app, <- E1. split; [reflexivity|].
            assert (OF : offers o (Way (w_first w) (w_cost w + a_cost a) (w_hops w + 1) (a_dist a)
                   (ev_dst ev (ev_host ev (tn_orig node))))).
            { unfold o, offers. cbn [ra_first ra_cost ra_hops ra_dist ra_single ra_last w_first w_cost w_hops w_dist w_last].
              rewrite S1, S2, u32_id by (unfold is_u32; lia). rewrite u8_u8_add.
              repeat split. symmetry. apply Z.eqb_neq. lia. }
            split.
            -- apply Forall_app. split; [exact E2|]. constructor; [|constructor].
               exists t. eexists. split; [exact HP|]. split; [reflexivity|exact OF].
            -- intros x Rx Dx. destruct (target_eq_dec x t) as [->|N].
               ++ exists o. eexists. split; [apply in_app_iff; right; now left|].
                  split; [reflexivity|]. split; [exact CH|]. apply OF.
               ++ rewrite set_dn_other in Dx by exact N.
                  destruct (E3 x Rx Dx) as (o' & w' & O1 & O2 & O3 & O4).
                  exists o', w'. split; [apply in_app_iff; now left|]. auto.
        + split; cbn [dn wq].
          * intros x c _ [D|[D1 D2]]; unfold covered; cbn [dn wq].
            -- left. destruct (target_eq_dec x t) as [->|N]; [now rewrite set_dn_same|].
               now rewrite set_dn_other.
            -- destruct (target_eq_dec x t) as [->|N]; [left; now rewrite set_dn_same|].
               right. rewrite set_dn_other by exact N. auto.
          * intros x Dx. destruct (target_eq_dec x t) as [->|N]; [|now rewrite set_dn_other].
            rewrite set_dn_same. unfold nd, n. destruct (dn s t) as [? ? ? ? ? ? ? b]. cbn in Dx |- *.
            now subst b.
        + intros _ _. left. cbn [dn]. now rewrite set_dn_same.
    Qed.
  End Node.

  Record full (s : dstate) : Prop := {
    f_inv : inv s;
    f_first : forall nb, first_hop ev tp nbs af true ss nb ->
      covered s (TNode (nb_orig nb)) (nb_out nb);
    f_closed : forall node, In node (tp_nodes tp) -> reach (TNode (tn_orig node)) ->
      d_done (dn s (TNode (tn_orig node))) = true -> closed s node }.

  Lemma frontier s : full s -> forall t w, P t w ->
    d_done (dn s t) = true \/ exists v, In v (wq s) /\ d_cost (dn s v) <= w_cost w.
  Proof.
    intros FU t w HP. unfold P in HP.
    induction HP as [nb F|node t c d w Hn HP IH L]; cbn [w_cost].
    - destruct (f_first s FU nb F) as [D|[D1 D2]]; [now left|right]. eauto.
    - pose proof (link_cost_pos _ _ _ _ Hn L) as Pos.
      destruct IH as [D|(v & V1 & V2)]; [|right; exists v; split; [exact V1|lia]].
      assert (R : reach (TNode (tn_orig node))) by (eexists; exact HP).
      destruct (f_closed s FU node Hn R D t c d L) as [D'|[D1 D2]]; [now left|right].
      exists t. split; [exact D1|].
      destruct (i_done s (f_inv s FU) _ R D eq_refl) as (w' & [_ MIN] & SH).
      specialize (MIN w HP). destruct SH as (E & _). lia.
  Qed.

  Lemma pop_inv s s' : safe tp s -> wq s <> [] -> full s ->
    handle_working_queue ev tp true ss s = Some s' -> full s'.
  Proof.
    intros SF NE FU. unfold handle_working_queue.
    destruct (wq s) as [|t q] eqn:Q; [contradiction|]. clear NE.
    assert (Ht : In t (wq s)) by (rewrite Q; now left).
    pose proof (f_inv s FU) as I.
    destruct (i_wq s I t Ht) as (w & HP & SH).
    assert (R : reach t) by (eexists; exact HP).
    assert (SF' : shows (dn s t) w) by exact SH.
    destruct SH as (S1 & S2 & S3 & S4 & S5 & S6). rewrite S4.
    assert (DT : d_done (dn s t) = false) by (now apply (sf_open _ _ SF)).
    assert (LT : light t = false).
    { destruct t as [a|k]; [reflexivity|]. cbn. pose proof (sf_heavy _ _ SF k Ht).
      destruct (Z.ltb_spec 1 (att_count tp k)); [reflexivity|lia]. }
    assert (CH : cheapest t w).
    { split; [exact HP|]. intros w' HP'.
      destruct (frontier s FU t w' HP') as [D|(v & V1 & V2)]; [congruence|].
      pose proof (i_sorted s I) as SO. rewrite Q in SO, V1. inversion SO as [|? ? _ FA]; subst.
      destruct V1 as [->|V1]; [lia|]. rewrite Forall_forall in FA. specialize (FA v V1). lia. }
    set (d' := DNode (d_cost (dn s t)) (d_hops (dn s t)) (d_dist (dn s t)) (Some (w_first w))
                 (d_single (dn s t)) (d_last (dn s t)) (d_local (dn s t)) true).
    set (o := RArgs (target_key ev t) _ _ _ _ _ _ _).
    set (s1 := DState (set_dn (dn s) t d') q (update_routing_entry ev (rt s) o)).
    assert (SD : shows d' w) by (unfold d'; repeat split; assumption).
    assert (ND : ~ In t q).
    { pose proof (sf_nodup _ _ SF) as ND. rewrite Q in ND. now inversion ND. }
    assert (I1 : inv s1).
    { unfold s1. constructor; cbn [dn wq rt].
      - pose proof (i_sorted s I) as SO. rewrite Q in SO. inversion SO as [|? ? SO' _]; subst.
        apply (sorted_wq_ext (dn s)); [|exact SO'].
        intros x Hx. now rewrite set_dn_other by (intros ->; contradiction).
      - intros x Hx. rewrite set_dn_other by (intros ->; contradiction).
        apply (i_wq s I). rewrite Q. now right.
      - intros x Rx. destruct (target_eq_dec x t) as [->|N].
        + rewrite set_dn_same. intros _ _. exists w. auto.
        + rewrite set_dn_other by exact N. now apply (i_done s I).
      - intros x. destruct (target_eq_dec x t) as [->|N].
        + rewrite set_dn_same. apply (i_local s I).
        + rewrite set_dn_other by exact N. apply (i_local s I).
      - intros x Nx. rewrite set_dn_other by (intros ->; contradiction). now apply (i_rest s I).
      - destruct (i_off s I) as (os & E1 & E2 & E3).
        exists (os ++ [o]). rewrite fold_left_app, <- E1. split; [reflexivity|].
        assert (K : ra_key o = key_of ev t) by (destruct t; reflexivity).
        split.
        + apply Forall_app. split; [exact E2|]. constructor; [|constructor].
          exists t, w. split; [exact HP|]. split; [exact K|]. repeat split; assumption.
        + intros x Rx Dx. destruct (target_eq_dec x t) as [->|N].
          * exists o, w. split; [apply in_app_iff; right; now left|].
            split; [exact K|]. split; [exact CH|exact S1].
          * rewrite set_dn_other in Dx by exact N.
            destruct (E3 x Rx Dx) as (o' & w' & O1 & O2 & O3 & O4).
            exists o', w'. split; [apply in_app_iff; now left|]. auto. }
    assert (M1 : mono s s1).
    { split.
      - intros x c _ [D|[D1 D2]]; unfold covered, s1; cbn [dn wq].
        + left. destruct (target_eq_dec x t) as [->|N]; [now rewrite set_dn_same|].
          now rewrite set_dn_other.
        + destruct (target_eq_dec x t) as [->|N]; [left; now rewrite set_dn_same|].
          right. rewrite set_dn_other by exact N. rewrite Q in D1.
          destruct D1 as [->|D1]; [contradiction|auto].
      - intros x Dx. unfold s1; cbn [dn]. apply set_dn_other. intros ->. congruence. }
    (** what remains to be shown for the final state *)
    assert (FIN : forall s2, inv s2 -> mono s1 s2 ->
              (forall node, In node (tp_nodes tp) -> t = TNode (tn_orig node) -> closed s2 node) ->
              (forall x, reach x -> light x = false -> d_done (dn s2 x) = true -> d_done (dn s1 x) = true) ->
              full s2).
    { intros s2 I2 M2 CL DN. pose proof (mono_trans _ _ _ M1 M2) as M.
      constructor; [exact I2| |].
      - intros nb F. apply M; [|now apply (f_first s FU)].
        eexists. apply path_first. exact F.
      - intros node Hn Rn Dn. destruct (target_eq_dec t (TNode (tn_orig node))) as [E|N]; [now apply CL|].
        specialize (DN _ Rn eq_refl Dn). unfold s1 in DN; cbn [dn] in DN.
        rewrite set_dn_other in DN by congruence.
        intros x c y L. rewrite (proj2 M _ DN). apply M; [|now apply (f_closed s FU) with (d := y)].
        destruct Rn as (wn & Pn). eexists. eapply path_link; eauto. }
    destruct t as [a|k].
    2:{ intros [= <-]. apply FIN; [exact I1|apply mono_refl|discriminate|auto]. }
    destruct (find_node_In tp a) as (node & FN & HN & EN); [now apply reach_node|].
    rewrite FN. intros E. injection E as E. subst a.
    destruct (fold_cover (handle_edge true ev node d' (w_first w))
       (fun s e => forall c x, link ev true ss node (TNode (e_dst e)) c x -> c = e_cost e ->
         e_virtual e = false -> e_cost e <= METRIC_MAX ->
         covered s (TNode (e_dst e)) (w_cost w + e_cost e)) (tn_edges node)) with (s := s1)
      as (I2 & M2 & C2); [| |exact I1|].
    { intros s2 e He Is2. now apply edge_inv. }
    { intros sa sb e M C c x L E1 E2 E3. apply M; [|now apply (C c x)].
      eexists. eapply path_link; [exact HN|exact HP|exact L]. }
    set (s2 := fold_left (handle_edge true ev node d' (w_first w)) (tn_edges node) s1) in *.
    destruct (fold_cover (handle_att true ss ev tp node d' (w_first w))
       (fun s a => a_cost a <= METRIC_MAX -> wanted_key ev true ss (a_dst a) = true ->
           In a (tn_atts node) -> covered s (TEnd (a_dst a)) (w_cost w + a_cost a)) (tn_atts node))
      with (s := s2) as (I3 & M3 & C3); [| |exact I2|].
    { intros sa a Ha Is. destruct (att_inv node w d' HN CH SD sa a Ha Is) as (X1 & X2 & X3).
      split; [exact X1|]. split; [exact X2|]. intros; now apply X3. }
    { intros sa sb a M C H1 H2 H3. apply M; [|now apply C].
      eexists. eapply path_link; [exact HN|exact HP|]. now apply link_att. }
    fold s1 in E.
    assert (E3 : s' = fold_left (handle_att true ss ev tp node d' (w_first w)) (tn_atts node) s2)
      by (symmetry; exact E).
    clear E. rewrite E3. set (s3 := fold_left _ (tn_atts node) s2) in *.
    pose proof (mono_trans _ _ _ M2 M3) as M13.
    assert (D1 : d_done (dn s1 (TNode (tn_orig node))) = true)
      by (unfold s1; cbn [dn]; now rewrite set_dn_same).
    apply FIN; [exact I3|exact M13| |].
    - intros n Hn En. injection En as En.
      assert (n = node) as ->.
      { apply (find_node_unique ev tp TK) in Hn. rewrite <- En, FN in Hn. congruence. }
      intros x c y L. rewrite (proj2 M13 _ D1). unfold s1 at 1; cbn [dn]. rewrite set_dn_same.
      assert (Ec : d_cost d' = w_cost w) by apply SD. rewrite Ec.
      assert (Rx : reach x) by (eexists; eapply path_link; [exact HN|exact HP|exact L]).
      destruct L as [e He V C O W|a Ha C W].
      + apply M3; [exact Rx|].
        apply (C2 e He (e_cost e) 0); auto. apply link_edge; auto.
      + apply C3; auto.
    - (* no other node is marked as done *)
      intros x Rx Lx.
      assert (KE : forall l, (forall e, In e l -> In e (tn_edges node)) -> forall sa, inv sa ->
                d_done (dn (fold_left (handle_edge true ev node d' (w_first w)) l sa) x) = d_done (dn sa x)).
      { induction l as [|e l IH]; intros Hl sa Ia; cbn [fold_left]; [reflexivity|].
        rewrite IH; [| intros; apply Hl; now right | apply edge_inv; auto; apply Hl; now left].
        unfold handle_edge. destruct (negb (e_virtual e) && (e_cost e <=? METRIC_MAX)); [|reflexivity].
        cbn [negb andb].
        match goal with |- context [insert_into_working_tree ?s ?t ?a ?b ?c ?d ?e ?f ?g] =>
          destruct (relax_cases s t a b c d e f g) as [[-> _]|(_ & _ & Dd & _ & Edn & _)] end; [reflexivity|].
        rewrite Edn. destruct (target_eq_dec x (TNode (e_dst e))) as [->|N].
        - rewrite set_dn_same, Dd. reflexivity.
        - now rewrite set_dn_other. }
      assert (KA : forall l, (forall a, In a l -> In a (tn_atts node)) -> forall sa, inv sa ->
                d_done (dn (fold_left (handle_att true ss ev tp node d' (w_first w)) l sa) x) = d_done (dn sa x)).
      { induction l as [|a l IH]; intros Hl sa Ia; cbn [fold_left]; [reflexivity|].
        rewrite IH; [| intros; apply Hl; now right | apply (att_inv node w d' HN CH SD); auto; apply Hl; now left].
        unfold handle_att. destruct (a_cost a <=? METRIC_MAX); [|reflexivity].
        destruct (negb _); [reflexivity|].
        destruct (Z.ltb_spec 1 (att_count tp (a_dst a))) as [C|C].
        - match goal with |- context [insert_into_working_tree ?s ?t ?a ?b ?c ?d ?e ?f ?g] =>
            destruct (relax_cases s t a b c d e f g) as [[-> _]|(_ & _ & Dd & _ & Edn & _)] end; [reflexivity|].
          rewrite Edn. destruct (target_eq_dec x (TEnd (a_dst a))) as [->|N].
          + rewrite set_dn_same, Dd. reflexivity.
          + now rewrite set_dn_other.
        - cbn [dn]. rewrite set_dn_other; [reflexivity|]. intros ->. cbn in Lx.
          destruct (Z.ltb_spec 1 (att_count tp (a_dst a))); [lia|discriminate]. }
      intros Dx. unfold s3, s2 in Dx. rewrite KA, KE in Dx; auto.
  Qed.

  (** One run. *)
  Lemma run_opt : wq s0 = [] ->
    exists s', run_dijkstra ev tp nbs af true ss s0 = Some s' /\ wq s' = [] /\ inv s' /\
      (forall t, reach t -> d_done (dn s' t) = true).
  Proof.
    intros Q.
    assert (SF : safe tp s0) by (constructor; rewrite Q; try (intros ? []); constructor).
    assert (I0 : inv s0).
    { constructor.
      - rewrite Q. constructor.
      - rewrite Q. intros ? [].
      - intros t R D. rewrite (FRESH t R) in D. discriminate.
      - reflexivity.
      - reflexivity.
      - exists []. split; [reflexivity|]. split; [constructor|].
        intros t R D. rewrite (FRESH t R) in D. discriminate. }
    destruct (one_hop_inv s0 I0) as (I1 & M1 & C1).
    destruct (one_hop_safe ev tp nbs af true ss s0 SF) as (S1 & _ & _).
    assert (KD : forall t, d_done (dn (add_one_hop_nodes ev tp nbs af true ss s0) t) = d_done (dn s0 t)).
    { intros t. unfold add_one_hop_nodes. generalize s0. generalize nbs.
      intros l; induction l as [|nb l IH]; intros s; cbn [fold_left]; [reflexivity|]. rewrite IH.
      unfold add_one_hop_node.
      destruct (negb (ev_fam ev (nb_orig nb) =? af)); [reflexivity|].
      destruct (nb_sym nb =? 0); [reflexivity|].
      destruct (find_node tp (nb_orig nb)) as [node|]; [|reflexivity].
      cbn [negb andb].
      destruct ((METRIC_MAX <? nb_in nb) || (METRIC_MAX <? nb_out nb)); [reflexivity|].
      match goal with |- context [insert_into_working_tree ?s ?t ?a ?b ?c ?d ?e ?f ?g] =>
        destruct (relax_cases s t a b c d e f g) as [[-> _]|(_ & _ & Dd & _ & Edn & _)] end; [reflexivity|].
      rewrite Edn. destruct (target_eq_dec t (TNode (nb_orig nb))) as [->|N].
      - rewrite set_dn_same, Dd. reflexivity.
      - now rewrite set_dn_other. }
    assert (F1 : full (add_one_hop_nodes ev tp nbs af true ss s0)).
    { constructor; [exact I1|exact C1|].
      intros node Hn R D. rewrite KD, (FRESH _ R) in D. discriminate. }
    destruct (loop_inv ev tp true ss TK full) with
      (fuel := (length (tp_nodes tp) + length (tp_ends tp))%nat)
      (s := add_one_hop_nodes ev tp nbs af true ss s0) as (s' & E & _ & Q' & F' & _ & _); auto.
    - intros s s' SFs NE FU H. eapply pop_inv; eauto.
    - apply open_count_bound.
    - exists s'. split; [exact E|]. split; [exact Q'|]. split; [apply F'|].
      intros t (w & HP). destruct (frontier s' F' t w HP) as [D|(v & V & _)]; [exact D|].
      rewrite Q' in V. destruct V.
  Qed.
End Opt.
