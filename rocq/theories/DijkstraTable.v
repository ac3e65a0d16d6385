(** Proofs about the route calculation, part 3: the routing table and the
    whole calculation. *)
From Verif Require Import Base DijkstraModel DijkstraSpec DijkstraProofs DijkstraOpt.

Definition keys (l : list rentry) : list Z := map re_key l.

Lemma find_entry_In l k : In k (keys l) <-> exists e, find_entry l k = Some e.
Proof.
  unfold find_entry, keys. split.
  - intros H. destruct (find (fun e => re_key e =? k) l) as [e|] eqn:F; [eauto|].
    apply in_map_iff in H as (e & <- & He). apply (find_none _ _ F) in He.
    now rewrite Z.eqb_refl in He.
  - intros (e & F). apply find_some in F as [F1 F2]. apply Z.eqb_eq in F2.
    rewrite <- F2. now apply in_map.
Qed.

Lemma find_entry_key l k e : find_entry l k = Some e -> re_key e = k.
Proof. intros F. apply find_some in F as [_ F]. now apply Z.eqb_eq in F. Qed.

Lemma find_put_same l e k : re_key e = k -> In k (keys l) -> find_entry (put_entry l e) k = Some e.
Proof.
  intros <-. unfold find_entry, put_entry, keys. induction l as [|x l IH]; cbn [map find In]; [tauto|].
  intros H. destruct (Z.eqb_spec (re_key x) (re_key e)) as [E|E].
  - now rewrite Z.eqb_refl.
  - destruct (Z.eqb_spec (re_key x) (re_key e)); [contradiction|]. apply IH.
    destruct H; [contradiction|assumption].
Qed.
Lemma find_put_other l e k : re_key e <> k -> find_entry (put_entry l e) k = find_entry l k.
Proof.
  intros N. unfold find_entry, put_entry. induction l as [|x l IH]; cbn [map find]; [reflexivity|].
  destruct (Z.eqb_spec (re_key x) (re_key e)) as [E|E].
  - destruct (Z.eqb_spec (re_key e) k); [contradiction|].
    destruct (Z.eqb_spec (re_key x) k); [congruence|exact IH].
  - destruct (re_key x =? k); [reflexivity|exact IH].
Qed.
Lemma put_keys l e : keys (put_entry l e) = keys l.
Proof.
  unfold keys, put_entry. rewrite map_map. apply map_ext.
  intros x. destruct (Z.eqb_spec (re_key x) (re_key e)); congruence.
Qed.

Lemma find_insert_same l e : ~ In (re_key e) (keys l) -> find_entry (insert_entry l e) (re_key e) = Some e.
Proof.
  unfold find_entry, keys. induction l as [|x l IH]; cbn [insert_entry map In find]; intros N.
  - now rewrite Z.eqb_refl.
  - destruct (re_key x <? re_key e); cbn [find].
    + destruct (Z.eqb_spec (re_key x) (re_key e)) as [E|E]; [exfalso; apply N; now left|].
      apply IH. intros H; apply N; now right.
    + now rewrite Z.eqb_refl.
Qed.
Lemma find_insert_other l e k : re_key e <> k -> find_entry (insert_entry l e) k = find_entry l k.
Proof.
  intros N. unfold find_entry. induction l as [|x l IH]; cbn [insert_entry find].
  - destruct (Z.eqb_spec (re_key e) k); [contradiction|reflexivity].
  - destruct (re_key x <? re_key e); cbn [find].
    + destruct (re_key x =? k); [reflexivity|exact IH].
    + destruct (Z.eqb_spec (re_key e) k); [contradiction|reflexivity].
Qed.
Lemma insert_keys l e k : In k (keys (insert_entry l e)) <-> k = re_key e \/ In k (keys l).
Proof.
  unfold keys. induction l as [|x l IH]; cbn [insert_entry map In].
  - intuition.
  - destruct (re_key x <? re_key e); cbn [map In]; [rewrite IH|]; intuition.
Qed.

Section Table.
  Context (ev : env).

  Lemma update_spec l o :
    let l' := update_routing_entry ev l o in
    (forall k, k <> ra_key o -> find_entry l' k = find_entry l k) /\
    (~ admissible ev (keys l) (ra_key o) (ra_cost o) -> l' = l) /\
    (admissible ev (keys l) (ra_key o) (ra_cost o) ->
       (exists e, find_entry l (ra_key o) = Some e /\ find_entry l' (ra_key o) = Some e /\
                  re_set e = true /\ re_cost e < ra_cost o) \/
       (exists e, find_entry l' (ra_key o) = Some e /\ re_set e = true /\
                  re_cost e = ra_cost o /\ (forall w, offers o w -> describes ev e w) /\
                  forall e0, find_entry l (ra_key o) = Some e0 -> re_set e0 = true ->
                    ra_cost o <= re_cost e0)) /\
    (forall k, In k (keys l') -> In k (keys l) \/ ev_mem ev k = true) /\
    (forall k, In k (keys l) -> In k (keys l')).
  Proof.
    cbv zeta. unfold update_routing_entry, admissible.
    set (k := ra_key o) in *.
    destruct (Z.eqb_spec (ev_originator ev (ev_fam ev (ev_dst ev k))) (ev_dst ev k)) as [E1|E1].
    { repeat split; auto; tauto. }
    destruct (ev_ifaddr ev (ev_dst ev k)) eqn:E2.
    { repeat split; auto. intros (_ & H & _); congruence. }
    assert (LAN : match ev_lan ev k with
                  | Some (active, metric) => active && (metric <? ra_cost o)
                  | None => false end = true <->
                  exists m, ev_lan ev k = Some (true, m) /\ m < ra_cost o).
    { destruct (ev_lan ev k) as [[act m]|].
      - split.
        + intros H. apply andb_prop in H as [-> H]. apply Z.ltb_lt in H. eauto.
        + intros (m' & [= -> ->] & H). cbn. now apply Z.ltb_lt.
      - split; [discriminate|]. intros (m & H & _); discriminate. }
    destruct (match ev_lan ev k with Some (active, metric) => active && (metric <? ra_cost o)
              | None => false end) eqn:E3.
    { apply proj1 in LAN. specialize (LAN eq_refl).
      repeat split; auto. intros (_ & _ & H & _). contradiction. }
    assert (NL : ~ exists m, ev_lan ev k = Some (true, m) /\ m < ra_cost o).
    { intros H. apply LAN in H. discriminate. }
    destruct (ev_routable ev (ev_dst ev k)) eqn:E4; cbn [negb].
    2:{ repeat split; auto. intros (_ & _ & _ & H & _). congruence. }
    unfold add_entry. destruct (find_entry l k) as [e|] eqn:F.
    - assert (IK : In k (keys l)) by (apply find_entry_In; eauto).
      pose proof (find_entry_key _ _ _ F) as KE.
      destruct (re_set e && (re_cost e <? ra_cost o)) eqn:C.
      + apply andb_prop in C as [C1 C2]. apply Z.ltb_lt in C2.
        split; [reflexivity|]. split; [reflexivity|]. split; [|split; auto].
        intros _. left. exists e. auto.
      + cbv zeta. match goal with |- context [put_entry _ ?x] => set (ne := x) end.
        assert (KN : re_key ne = k) by reflexivity.
        assert (FN : find_entry (put_entry l ne) k = Some ne) by (now apply find_put_same).
        split; [intros k' N; apply find_put_other; congruence|].
        split; [intros NA; exfalso; apply NA; repeat (split; [assumption|]); solve [auto]|].
        split; [|split; intros k'; rewrite put_keys; auto].
        intros _. right. exists ne. split; [exact FN|]. split; [reflexivity|]. split; [reflexivity|].
        split.
        * intros w (O1 & O2 & O3 & O4 & O5 & O6).
          unfold describes, ne; cbn [re_cost re_hops re_next re_last re_p re_key p_if p_gw p_metric].
          rewrite O1, O2, O3, O4, O5, O6. repeat (split; [reflexivity|]).
          destruct (Z.eqb_spec (w_hops w) 1) as [H|H]; cbn [andb]; [|left; auto].
          destruct (Z.eqb_spec (nb_gw (w_first w)) (ev_dst ev k)) as [G|G]; [right|left]; auto.
        * intros e0 [= <-] S0. rewrite S0 in C. cbn in C. apply Z.ltb_ge in C. exact C.
    - assert (NK : ~ In k (keys l)).
      { intros H. apply find_entry_In in H as (e & H). congruence. }
      destruct (ev_mem ev k) eqn:M.
      2:{ repeat split; auto. intros (_ & _ & _ & _ & [H|H]); [contradiction|congruence]. }
      cbn [re_set andb].
      set (be := REntry k METRIC_INFINITE_PATH 255 0 0 0 false false None zero_param).
      cbv zeta. match goal with |- context [put_entry _ ?x] => set (ne := x) end.
      assert (KN : re_key ne = k) by reflexivity.
      assert (KB : re_key be = k) by reflexivity.
      assert (FN : find_entry (put_entry (insert_entry l be) ne) k = Some ne).
      { apply find_put_same; [reflexivity|]. apply insert_keys. now left. }
      split; [intros k' N; rewrite find_put_other by congruence; apply find_insert_other; congruence|].
      split; [intros NA; exfalso; apply NA; repeat (split; [assumption|]); solve [auto]|].
      split; [|split; intros k'; rewrite put_keys, insert_keys; intros H].
      + intros _. right. exists ne. split; [exact FN|]. split; [reflexivity|]. split; [reflexivity|].
        split; [|discriminate].
        intros w (O1 & O2 & O3 & O4 & O5 & O6).
        unfold describes, ne; cbn [re_cost re_hops re_next re_last re_p re_key p_if p_gw p_metric].
        rewrite O1, O2, O3, O4, O5, O6. repeat (split; [reflexivity|]).
        destruct (Z.eqb_spec (w_hops w) 1) as [H|H]; cbn [andb]; [|left; auto].
        destruct (Z.eqb_spec (nb_gw (w_first w)) (ev_dst ev k)) as [G|G]; [right|left]; auto.
      + destruct H as [->|H]; [now right|now left].
      + now right.
  Qed.

  Lemma admissible_keys l l0 k c :
    (forall x, In x (keys l) -> In x (keys l0) \/ ev_mem ev x = true) ->
    (forall x, In x (keys l0) -> In x (keys l)) ->
    admissible ev (keys l) k c <-> admissible ev (keys l0) k c.
  Proof.
    intros H1 H2. unfold admissible. split; intros (A & B & C & D & E); repeat (split; [assumption|]).
    - destruct E as [E|E]; [auto|now right].
    - destruct E as [E|E]; [left; auto|now right].
  Qed.

  Lemma admissible_dec kn k c : admissible ev kn k c \/ ~ admissible ev kn k c.
  Proof.
    unfold admissible.
    destruct (Z.eq_dec (ev_originator ev (ev_fam ev (ev_dst ev k))) (ev_dst ev k)); [right; tauto|].
    destruct (ev_ifaddr ev (ev_dst ev k)); [right; intros (_ & H & _); discriminate|].
    destruct (ev_routable ev (ev_dst ev k)); [|right; intros (_ & _ & _ & H & _); discriminate].
    assert (L : (exists m, ev_lan ev k = Some (true, m) /\ m < c) \/
                ~ (exists m, ev_lan ev k = Some (true, m) /\ m < c)).
    { destruct (ev_lan ev k) as [[[|] m]|].
      - destruct (Z_lt_dec m c); [left; eauto|right; intros (m' & [= <-] & H); contradiction].
      - right; intros (m' & H & _); discriminate.
      - right; intros (m' & H & _); discriminate. }
    destruct L as [L|L]; [right; tauto|].
    destruct (in_dec Z.eq_dec k kn); [left; tauto|].
    destruct (ev_mem ev k); [left; tauto|right]. intros (_ & _ & _ & _ & [H|H]); [contradiction|discriminate].
  Qed.

  (** The table after a sequence of updates. *)
  Lemma fold_updates l0 : (forall e, In e l0 -> re_set e = false) -> forall os,
    let l := fold_left (update_routing_entry ev) os l0 in
    (forall x, In x (keys l) -> In x (keys l0) \/ ev_mem ev x = true) /\
    (forall x, In x (keys l0) -> In x (keys l)) /\
    (forall k e, find_entry l k = Some e -> re_set e = true ->
       exists o, In o os /\ ra_key o = k /\ admissible ev (keys l0) k (ra_cost o) /\
         (forall w, offers o w -> describes ev e w) /\ re_cost e = ra_cost o /\
         forall o', In o' os -> ra_key o' = k -> re_cost e <= ra_cost o') /\
    (forall o, In o os -> admissible ev (keys l0) (ra_key o) (ra_cost o) ->
       exists e, find_entry l (ra_key o) = Some e /\ re_set e = true).
  Proof.
    intros U os. cbv zeta. induction os as [|o os IH] using rev_ind.
    - cbn [fold_left]. split; [auto|]. split; [auto|]. split; [|intros ? []].
      intros k e F S. apply find_some in F as [F _]. rewrite (U e F) in S. discriminate.
    - rewrite fold_left_app. cbn [fold_left].
      set (l := fold_left (update_routing_entry ev) os l0) in *.
      destruct IH as (K1 & K2 & A1 & A2).
      destruct (update_spec l o) as (B1 & B2 & B3 & B4 & B5).
      set (l' := update_routing_entry ev l o) in *.
      pose proof (admissible_keys l l0 (ra_key o) (ra_cost o) K1 K2) as AK.
      split; [intros x Hx; apply B4 in Hx as [Hx|Hx]; auto|].
      split; [auto|].
      assert (OLD : forall k e, find_entry l k = Some e -> re_set e = true ->
                (ra_key o = k -> re_cost e <= ra_cost o) ->
                exists o0, In o0 (os ++ [o]) /\ ra_key o0 = k /\ admissible ev (keys l0) k (ra_cost o0) /\
                  (forall w, offers o0 w -> describes ev e w) /\ re_cost e = ra_cost o0 /\
                  forall o', In o' (os ++ [o]) -> ra_key o' = k -> re_cost e <= ra_cost o').
      { intros k e F S L. destruct (A1 k e F S) as (o0 & O1 & O2 & O3 & O4 & O5 & O6).
        exists o0. split; [apply in_app_iff; now left|]. repeat (split; [assumption|]).
        intros o' Ho' K'. apply in_app_iff in Ho' as [Ho'|[<-|[]]]; auto. }
      split.
      + intros k e F S. destruct (Z.eq_dec k (ra_key o)) as [->|N].
        * destruct (admissible_dec (keys l) (ra_key o) (ra_cost o)) as [A|A].
          -- destruct (B3 A) as [(e' & F1 & F2 & S' & C')|(e' & F1 & S' & C' & D' & L')].
             ++ rewrite F2 in F. injection F as ->. apply OLD; auto. intros _. lia.
             ++ rewrite F1 in F. injection F as ->. exists o.
                split; [apply in_app_iff; right; now left|]. split; [reflexivity|].
                split; [now apply AK|]. split; [exact D'|]. split; [exact C'|].
                intros o' Ho' K'. apply in_app_iff in Ho' as [Ho'|[<-|[]]]; [|lia].
                destruct (admissible_dec (keys l0) (ra_key o) (ra_cost o')) as [A'|A'].
                ** rewrite <- K' in A'. destruct (A2 o' Ho' A') as (e0 & F0 & S0).
                   rewrite K' in F0. specialize (L' e0 F0 S0).
                   destruct (A1 _ _ F0 S0) as (_ & _ & _ & _ & _ & _ & MIN).
                   specialize (MIN o' Ho' K'). lia.
                ** apply AK in A. destruct A as (X1 & X2 & X3 & X4 & X5).
                   destruct (Z_le_dec (re_cost e) (ra_cost o')) as [Y|Y]; [exact Y|exfalso].
                   apply A'. repeat (split; [assumption|]). split; [|auto].
                   intros (m & M1 & M2). apply X3. exists m. split; [exact M1|lia].
          -- rewrite (B2 A) in F. apply OLD; auto. intros _.
             destruct (A1 _ _ F S) as (o0 & _ & K0 & (X1 & X2 & X3 & X4 & X5) & _ & C0 & _).
             destruct (Z_le_dec (re_cost e) (ra_cost o)) as [Y|Y]; [exact Y|exfalso].
             apply A, AK. repeat (split; [assumption|]). split; [|auto].
             intros (m & M1 & M2). apply X3. exists m. split; [exact M1|lia].
        * rewrite (B1 k N) in F. apply OLD; auto. congruence.
      + intros o' Ho' A'. destruct (Z.eq_dec (ra_key o') (ra_key o)) as [E|N].
        * destruct (admissible_dec (keys l) (ra_key o) (ra_cost o)) as [A|A].
          -- destruct (B3 A) as [(e & F1 & F2 & S' & _)|(e & F1 & S' & _)]; rewrite E; eauto.
          -- rewrite (B2 A). apply in_app_iff in Ho' as [Ho'|[<-|[]]]; [auto|].
             exfalso. now apply A, AK.
        * rewrite (B1 _ N). apply in_app_iff in Ho' as [Ho'|[<-|[]]]; [auto|congruence].
  Qed.
End Table.

(** The routes learned from NHDP as a list of updates. *)
Definition nhdp_offers (ev : env) (nb : neigh) : list rargs :=
  if (nb_sym nb =? 0) || (METRIC_MAX <? nb_out nb) then []
  else
    map (fun addr => let orig := ev_originator ev (ev_fam ev (nb_orig nb)) in
                     RArgs (ev_host ev addr) orig nb 0 (nb_out nb) 1 true orig)
      (filter (ev_nhdp_routable ev) (nb_addrs nb)) ++
    map (fun h => RArgs (ev_host ev (l2_addr h)) 0 nb 0 (u32 (l2_out h + nb_out nb)) 2 false (nb_orig nb))
      (filter (fun h => negb (l2_lost h) && negb (METRIC_MAX <? l2_out h)) (nb_2hop nb)).

Lemma nhdp_fold ev nbs l :
  handle_nhdp_routes ev nbs l =
  fold_left (update_routing_entry ev) (flat_map (nhdp_offers ev) nbs) l.
Proof.
  unfold handle_nhdp_routes. revert l. induction nbs as [|nb nbs IH]; intros l; cbn [fold_left flat_map].
  - reflexivity.
  - rewrite fold_left_app, IH. f_equal. unfold handle_nhdp_neigh, nhdp_offers.
    destruct ((nb_sym nb =? 0) || (METRIC_MAX <? nb_out nb)); [reflexivity|].
    rewrite fold_left_app.
    assert (A : forall q r, fold_left (handle_nhdp_addr ev nb) q r =
       fold_left (update_routing_entry ev)
         (map (fun addr => let orig := ev_originator ev (ev_fam ev (nb_orig nb)) in
                     RArgs (ev_host ev addr) orig nb 0 (nb_out nb) 1 true orig)
            (filter (ev_nhdp_routable ev) q)) r).
    { induction q as [|x q IHq]; intros r; cbn [fold_left filter]; [reflexivity|].
      rewrite IHq. unfold handle_nhdp_addr at 1.
      destruct (ev_nhdp_routable ev x); cbn [negb map fold_left]; reflexivity. }
    assert (B : forall q r, fold_left (handle_nhdp_2hop ev nb) q r =
       fold_left (update_routing_entry ev)
         (map (fun h => RArgs (ev_host ev (l2_addr h)) 0 nb 0 (u32 (l2_out h + nb_out nb)) 2 false (nb_orig nb))
            (filter (fun h => negb (l2_lost h) && negb (METRIC_MAX <? l2_out h)) q)) r).
    { induction q as [|x q IHq]; intros r; cbn [fold_left filter]; [reflexivity|].
      rewrite IHq. unfold handle_nhdp_2hop at 1.
      destruct (l2_lost x); cbn [negb andb map fold_left]; [reflexivity|].
      destruct (METRIC_MAX <? l2_out x); cbn [negb map fold_left]; reflexivity. }
    now rewrite A, B.
Qed.

Lemma nhdp_offer_leads ev tp nbs : neighs_ok nbs ->
  forall o, In o (flat_map (nhdp_offers ev) nbs) ->
  exists w, leads ev tp nbs (ra_key o) w /\ offers o w.
Proof.
  intros NK o H. apply in_flat_map in H as (nb & Hnb & H). unfold nhdp_offers in H.
  destruct (Z.eqb_spec (nb_sym nb) 0) as [S|S]; [destruct H|].
  destruct (Z.ltb_spec METRIC_MAX (nb_out nb)) as [M|M]; [destruct H|]. cbn [orb] in H.
  destruct (NK nb Hnb) as [Pos P2].
  apply in_app_iff in H as [H|H]; apply in_map_iff in H as (x & <- & H); apply filter_In in H as [H1 H2].
  - eexists. split; [eapply leads_neighbor with (addr := x); eauto|]. repeat split.
  - apply andb_prop in H2 as [H2 H3]. apply negb_true_iff in H2, H3. apply Z.ltb_ge in H3.
    eexists. split; [eapply leads_two_hop with (h := x); eauto|].
    specialize (P2 x H1). repeat split; cbn. rewrite u32_id; [lia|].
    unfold is_u32, METRIC_MAX in *. lia.
Qed.

Section Whole.
  Context (ev : env) (tp : topo) (nbs : list neigh).
  Context (TK : topo_ok ev tp) (NK : neighs_ok nbs) (FIT : costs_fit ev tp nbs).

  (** Without source prefix both kinds of run find the same paths. *)
  Lemma path_srcspec af ss t w : path ev tp nbs af true true t w ->
    (ss = true \/ forall k, t = TEnd k -> ev_srclen ev k <= 0) -> path ev tp nbs af true ss t w.
  Proof.
    intros H. induction H as [nb F|node t c d w Hn HP IH L]; intros C.
    - apply path_first. destruct F as (F1 & F2 & F3 & F4 & F5 & F6 & n & N1 & N2 & N3).
      repeat (split; [assumption|]). exists n. auto.
    - apply path_link; [exact Hn|apply IH; right; discriminate|].
      destruct L as [e He V E O W|a Ha E W].
      + now apply link_edge.
      + apply link_att; auto. unfold wanted_key in *. destruct C as [->|C]; [exact W|].
        specialize (C _ eq_refl). destruct (Z.ltb_spec 0 (ev_srclen ev (a_dst a))); [lia|reflexivity].
  Qed.
  Lemma path_any_srcspec af ss t w : path ev tp nbs af true ss t w -> path ev tp nbs af true true t w.
  Proof.
    intros H. induction H as [nb F|node t c d w Hn HP IH L].
    - apply path_first. destruct F as (F1 & F2 & F3 & F4 & F5 & F6 & n & N1 & N2 & N3).
      repeat (split; [assumption|]). exists n. auto.
    - apply path_link; [exact Hn|exact IH|].
      destruct L as [e He V E O W|a Ha E W].
      + now apply link_edge.
      + apply link_att; auto. unfold wanted_key in *. now destruct (0 <? ev_srclen ev (a_dst a)).
  Qed.

  Lemma fit_srcspec af ss a w : path ev tp nbs af true ss (TNode a) w ->
    exists w', path ev tp nbs af true ss (TNode a) w' /\ w_cost w' <= 4294967295 - METRIC_MAX.
  Proof.
    intros H. apply path_any_srcspec in H. destruct (FIT _ _ _ H) as (w' & H' & B).
    exists w'. split; [|exact B]. apply path_srcspec; [exact H'|right; discriminate].
  Qed.

  Lemma path_family af pl ss a w : path ev tp nbs af pl ss (TNode a) w -> ev_fam ev a = af.
  Proof.
    intros H. remember (TNode a) as t eqn:E. revert a E.
    induction H as [nb F|node t c d w Hn HP IH L]; intros a E.
    - injection E as <-. apply F.
    - destruct L as [e He V C O W|x Ha C W]; [|discriminate]. injection E as <-.
      destruct (tk_edge ev tp TK node e Hn He) as (_ & _ & ->). now apply IH.
  Qed.

  Lemma reach_family af af' ss ss' t w w' :
    path ev tp nbs af true ss t w -> path ev tp nbs af' true ss' t w' -> af = af'.
  Proof.
    intros H H'. destruct t as [a|k].
    - apply path_family in H, H'. congruence.
    - remember (TEnd k) as t eqn:E. destruct H as [nb F|node t c d w Hn HP L]; [discriminate|].
      destruct L as [e He V C O W|x Hx C W]; [discriminate|]. injection E as E.
      remember (TEnd (a_dst x)) as t' eqn:E'.
      destruct H' as [nb' F'|node' t' c' d' w' Hn' HP' L']; [discriminate|].
      destruct L' as [e He V C' O W'|x' Hx' C' W']; [discriminate|]. injection E' as E'.
      apply path_family in HP, HP'.
      pose proof (tk_att_fam ev tp TK node node' x x' Hn Hn' Hx Hx' (eq_sym E')). congruence.
  Qed.

  Lemma path_present af pl ss t w : path ev tp nbs af pl ss t w -> In t (all_targets tp).
  Proof.
    intros H. destruct H as [nb F|node t c d w Hn HP L].
    - destruct F as (_ & _ & _ & _ & _ & _ & n & Hn & En & _).
      apply in_all_node. rewrite <- En. now apply in_map.
    - destruct L as [e He V C O W|x Hx C W].
      + apply in_all_node. apply (tk_edge ev tp TK node e Hn He).
      + apply in_all_end. apply (tk_att ev tp TK node x Hn Hx).
  Qed.

  Lemma path_not_own af pl ss a w : path ev tp nbs af pl ss (TNode a) w -> own_node ev a = false.
  Proof.
    intros H. remember (TNode a) as t eqn:E. destruct H as [nb F|node t c d w Hn HP L].
    - injection E as <-. apply F.
    - destruct L as [e He V C O W|x Ha C W]; [|discriminate]. now injection E as <-.
  Qed.

  Lemma calculate_ok f l : (forall k, d_local (f (TEnd k)) = false) ->
    exists l' f', calculate_routes ev tp nbs f l = Some (l', f') /\
    forall k,
      ((check_ssnode_split ev tp AF_INET = false /\ check_ssnode_split ev tp AF_INET6 = false) \/
       ev_srclen ev k <= 0) ->
      (forall e, find_entry l' k = Some e -> re_set e = true ->
         exists w, leads ev tp nbs k w /\ admissible ev (keys l) k (w_cost w) /\ describes ev e w /\
           forall w', leads ev tp nbs k w' -> w_cost w <= w_cost w') /\
      (forall w, leads ev tp nbs k w -> admissible ev (keys l) k (w_cost w) ->
         exists e, find_entry l' k = Some e /\ re_set e = true).
  Proof.
    intros LF. unfold calculate_routes.
    set (s0 := DState (prepare_nodes ev tp f) [] (prepare_routes l)).
    set (sp4 := check_ssnode_split ev tp AF_INET).
    set (sp6 := check_ssnode_split ev tp AF_INET6).
    assert (PN : forall a, In a (map tn_orig (tp_nodes tp)) ->
              d_local (dn s0 (TNode a)) = own_node ev a /\ d_done (dn s0 (TNode a)) = false).
    { intros a Ha. destruct (find_node_In tp a Ha) as (n & F & _).
      unfold s0; cbn [dn prepare_nodes]. rewrite F. split; reflexivity. }
    assert (PE : forall k, d_local (dn s0 (TEnd k)) = false).
    { intros k. unfold s0; cbn [dn prepare_nodes]. destruct (find_end tp k); apply LF. }
    assert (PD : forall t, In t (all_targets tp) -> d_done (dn s0 t) = false).
    { intros [a|k] H.
      - apply in_all_node in H. apply PN, H.
      - apply in_all_end in H. destruct (find_end_In tp k H) as (e & F & _).
        unfold s0; cbn [dn prepare_nodes]. now rewrite F. }
    (* first run *)
    destruct (run_opt ev tp nbs AF_INET (negb sp4) TK NK (fit_srcspec AF_INET (negb sp4)) s0)
      as (s1 & E1 & Q1 & I1 & D1); [| | |reflexivity|].
    { intros t (w & H). apply PD. eapply path_present; eauto. }
    { intros a Ha. apply PN, Ha. }
    { exact PE. }
    rewrite E1. cbn [obind].
    (* second run *)
    destruct (run_opt ev tp nbs AF_INET6 (negb sp6) TK NK (fit_srcspec AF_INET6 (negb sp6)) s1)
      as (s2 & E2 & Q2 & I2 & D2); [| | |exact Q1|].
    { intros t (w & H). rewrite (i_rest _ _ _ _ _ _ _ I1).
      - apply PD. eapply path_present; eauto.
      - intros (w' & H'). pose proof (reach_family _ _ _ _ _ _ _ H H'). discriminate. }
    { intros a Ha. rewrite (i_local _ _ _ _ _ _ _ I1). apply PN, Ha. }
    { intros k. rewrite (i_local _ _ _ _ _ _ _ I1). apply PE. }
    rewrite E2. cbn [obind].
    (* source specific runs *)
    assert (E5 : exists s5,
      (if sp4 || sp6 then
           let s3 := DState (prepare_nodes ev tp (dn s2)) (wq s2) (rt s2) in
           obind (if sp4 then run_dijkstra ev tp nbs AF_INET false true s3 else Some s3)
             (fun s4 => if sp6 then run_dijkstra ev tp nbs AF_INET6 false true s4 else Some s4)
         else Some s2) = Some s5 /\
      exists os3, rt s5 = fold_left (update_routing_entry ev) os3 (rt s2) /\
        forall o, In o os3 -> sp4 || sp6 = true /\ 0 < ev_srclen ev (ra_key o)).
    { destruct (sp4 || sp6) eqn:SP.
      2:{ exists s2. split; [reflexivity|]. exists []. split; [reflexivity|intros o []]. }
      cbv zeta. set (s3 := DState (prepare_nodes ev tp (dn s2)) (wq s2) (rt s2)).
      assert (R4 : exists s4, (if sp4 then run_dijkstra ev tp nbs AF_INET false true s3 else Some s3) = Some s4 /\
                 wq s4 = [] /\ rtrace ev (offer_ok ev false) s3 s4).
      { destruct sp4.
        - apply run_safe; [exact TK|exact Q2].
        - exists s3. split; [reflexivity|]. split; [exact Q2|apply rtrace_refl]. }
      destruct R4 as (s4 & E4 & Q4 & R4). rewrite E4. cbn [obind].
      assert (R5 : exists s5, (if sp6 then run_dijkstra ev tp nbs AF_INET6 false true s4 else Some s4) = Some s5 /\
                 rtrace ev (offer_ok ev false) s4 s5).
      { destruct sp6.
        - destruct (run_safe ev tp nbs AF_INET6 false true TK s4 Q4) as (s5 & A & B & C). eauto.
        - exists s4. split; [reflexivity|]. apply rtrace_refl. }
      destruct R5 as (s5 & E5 & R5). rewrite E5. exists s5. split; [reflexivity|].
      destruct (rtrace_trans _ _ _ _ _ R4 R5) as (os3 & A & B). exists os3. split; [exact A|].
      intros o Ho. split; [reflexivity|]. rewrite Forall_forall in B. exact (B o Ho eq_refl). }
    destruct E5 as (s5 & E5 & os3 & R5 & O3). cbv zeta in E5 |- *.
    match goal with |- context [obind ?X (fun s5 => Some _)] => change X with (if sp4 || sp6 then obind (if sp4 then run_dijkstra ev tp nbs AF_INET false true (DState (prepare_nodes ev tp (dn s2)) (wq s2) (rt s2)) else Some (DState (prepare_nodes ev tp (dn s2)) (wq s2) (rt s2))) (fun s4 => if sp6 then run_dijkstra ev tp nbs AF_INET6 false true s4 else Some s4) else Some s2) end.
    rewrite E5. cbn [obind].
    do 2 eexists. split; [reflexivity|].
    destruct (i_off _ _ _ _ _ _ _ I1) as (os1 & R1 & O1 & X1).
    destruct (i_off _ _ _ _ _ _ _ I2) as (os2 & R2 & O2 & X2).
    rewrite nhdp_fold, R5, R2, R1. rewrite <- !fold_left_app.
    set (os4 := flat_map (nhdp_offers ev) nbs).
    rewrite !app_assoc. set (os := ((os1 ++ os2) ++ os3) ++ os4).
    assert (U : forall e, In e (rt s0) -> re_set e = false).
    { intros e He. unfold s0 in He; cbn [rt] in He. unfold prepare_routes in He.
      apply in_map_iff in He as (x & <- & _). reflexivity. }
    assert (KK : keys (rt s0) = keys l).
    { unfold s0, keys, prepare_routes; cbn [rt]. rewrite map_map. now apply map_ext. }
    destruct (fold_updates ev (rt s0) U os) as (_ & _ & A1 & A2).
    rewrite KK in *.
    intros k CK.
    (* every update for [k] is a way *)
    assert (SND : forall o, In o os -> ra_key o = k -> exists w, leads ev tp nbs k w /\ offers o w).
    { intros o Ho Ko. unfold os in Ho. rewrite !in_app_iff in Ho. rewrite Forall_forall in O1, O2.
      destruct Ho as [[[Ho|Ho]|Ho]|Ho].
      - destruct (O1 o Ho) as (t & w & HP & HK & OF). exists w. split; [|exact OF].
        apply leads_path with (af := AF_INET) (t := t); [now left|eapply path_any_srcspec; eauto|congruence].
      - destruct (O2 o Ho) as (t & w & HP & HK & OF). exists w. split; [|exact OF].
        apply leads_path with (af := AF_INET6) (t := t); [now right|eapply path_any_srcspec; eauto|congruence].
      - destruct (O3 o Ho) as [S L]. rewrite Ko in L. destruct CK as [[C1 C2]|C]; [|lia].
        fold sp4 in C1. fold sp6 in C2. rewrite C1, C2 in S. discriminate.
      - destruct (nhdp_offer_leads ev tp nbs NK o Ho) as (w & L & OF). rewrite Ko in L. eauto. }
    (* every way is matched by an update which is not more expensive *)
    assert (CMP : forall w, leads ev tp nbs k w -> exists o, In o os /\ ra_key o = k /\ ra_cost o <= w_cost w).
    { intros w L. destruct L as [af t w AF HP HK|nb addr Hnb HS HM HA HR HK|nb h Hnb HS HM HH HL HO HK].
      - assert (HP' : forall ss, (ss = negb sp4 /\ af = AF_INET) \/ (ss = negb sp6 /\ af = AF_INET6) ->
                  path ev tp nbs af true ss t w).
        { intros ss E. apply path_srcspec; [exact HP|].
          destruct CK as [[C1 C2]|C].
          - left. fold sp4 in C1. fold sp6 in C2. destruct E as [[-> _]|[-> _]]; [now rewrite C1|now rewrite C2].
          - right. intros k' ->. cbn in HK. congruence. }
        destruct AF as [->| ->].
        + specialize (HP' _ (or_introl (conj eq_refl eq_refl))).
          assert (R : reach ev tp nbs AF_INET (negb sp4) t) by (eexists; exact HP').
          destruct (X1 t R (D1 t R)) as (o & w1 & Ho & Ko & [_ MIN] & Co).
          exists o. split; [unfold os; rewrite !in_app_iff; auto|]. split; [congruence|].
          rewrite Co. apply MIN, HP'.
        + specialize (HP' _ (or_intror (conj eq_refl eq_refl))).
          assert (R : reach ev tp nbs AF_INET6 (negb sp6) t) by (eexists; exact HP').
          destruct (X2 t R (D2 t R)) as (o & w1 & Ho & Ko & [_ MIN] & Co).
          exists o. split; [unfold os; rewrite !in_app_iff; auto|]. split; [congruence|].
          rewrite Co. apply MIN, HP'.
      - set (o := let orig := ev_originator ev (ev_fam ev (nb_orig nb)) in
                  RArgs (ev_host ev addr) orig nb 0 (nb_out nb) 1 true orig).
        exists o. split; [|split; [exact HK|cbn; lia]].
        unfold os. rewrite in_app_iff. right. unfold os4. apply in_flat_map. exists nb. split; [exact Hnb|].
        unfold nhdp_offers. destruct (Z.eqb_spec (nb_sym nb) 0); [contradiction|].
        destruct (Z.ltb_spec METRIC_MAX (nb_out nb)); [lia|]. cbn [orb].
        apply in_app_iff. left. unfold o.
        apply (in_map (fun addr => let orig := ev_originator ev (ev_fam ev (nb_orig nb)) in
                     RArgs (ev_host ev addr) orig nb 0 (nb_out nb) 1 true orig)).
        now apply filter_In.
      - destruct (NK nb Hnb) as [Pos P2]. specialize (P2 h HH).
        set (o := RArgs (ev_host ev (l2_addr h)) 0 nb 0 (u32 (l2_out h + nb_out nb)) 2 false (nb_orig nb)).
        exists o. split; [|split; [exact HK|]].
        2:{ unfold o. cbn [ra_cost w_cost]. rewrite u32_id; [lia|]. unfold is_u32, METRIC_MAX in *. lia. }
        unfold os. rewrite in_app_iff. right. unfold os4. apply in_flat_map. exists nb. split; [exact Hnb|].
        unfold nhdp_offers. destruct (Z.eqb_spec (nb_sym nb) 0); [contradiction|].
        destruct (Z.ltb_spec METRIC_MAX (nb_out nb)); [lia|]. cbn [orb].
        apply in_app_iff. right. unfold o.
        apply (in_map (fun h => RArgs (ev_host ev (l2_addr h)) 0 nb 0 (u32 (l2_out h + nb_out nb)) 2 false (nb_orig nb))).
        apply filter_In. split; [exact HH|]. rewrite HL. cbn.
        destruct (Z.ltb_spec METRIC_MAX (l2_out h)); [lia|reflexivity]. }
    split.
    - intros e F S. destruct (A1 k e F S) as (o & Ho & Ko & AD & DE & CO & MIN).
      destruct (SND o Ho Ko) as (w & L & OF). exists w. split; [exact L|].
      assert (EC : ra_cost o = w_cost w) by apply OF.
      split; [rewrite <- EC; exact AD|]. split; [apply DE, OF|].
      intros w' L'. destruct (CMP w' L') as (o' & Ho' & Ko' & Co').
      specialize (MIN o' Ho' Ko'). lia.
    - intros w L AD. destruct (CMP w L) as (o & Ho & Ko & Co).
      assert (AD' : admissible ev (keys l) (ra_key o) (ra_cost o)).
      { rewrite Ko. destruct AD as (Y1 & Y2 & Y3 & Y4 & Y5). repeat (split; [assumption|]).
        split; [|auto]. intros (m & M1 & M2). apply Y3. exists m. split; [exact M1|lia]. }
      destruct (A2 o Ho AD') as (e & F & S). rewrite Ko in F. eauto.
  Qed.
End Whole.

(** Safety alone needs no bound on the costs. *)
Lemma calculate_safe ev tp nbs f l : topo_ok ev tp ->
  exists l' f', calculate_routes ev tp nbs f l = Some (l', f').
Proof.
  intros TK. unfold calculate_routes.
  destruct (run_safe ev tp nbs AF_INET true (negb (check_ssnode_split ev tp AF_INET)) TK
              (DState (prepare_nodes ev tp f) [] (prepare_routes l)) eq_refl) as (s1 & -> & Q1 & _).
  cbn [obind].
  destruct (run_safe ev tp nbs AF_INET6 true (negb (check_ssnode_split ev tp AF_INET6)) TK s1 Q1)
    as (s2 & -> & Q2 & _).
  cbn [obind].
  destruct (check_ssnode_split ev tp AF_INET || check_ssnode_split ev tp AF_INET6);
    [|cbn [obind]; eauto].
  cbv zeta. set (s3 := DState (prepare_nodes ev tp (dn s2)) (wq s2) (rt s2)).
  assert (R4 : exists s4, (if check_ssnode_split ev tp AF_INET
             then run_dijkstra ev tp nbs AF_INET false true s3 else Some s3) = Some s4 /\ wq s4 = []).
  { destruct (check_ssnode_split ev tp AF_INET).
    - destruct (run_safe ev tp nbs AF_INET false true TK s3 Q2) as (s4 & A & B & _). eauto.
    - exists s3. auto. }
  destruct R4 as (s4 & -> & Q4). cbn [obind].
  destruct (check_ssnode_split ev tp AF_INET6); [|cbn [obind]; eauto].
  destruct (run_safe ev tp nbs AF_INET6 false true TK s4 Q4) as (s5 & -> & _). cbn [obind]. eauto.
Qed.
