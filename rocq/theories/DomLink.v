(** Proofs about the domain data of one link and about neighbor metrics
    (C73-C76). *)
From Verif Require Import Base StrBase CodecModel CodecSpec DomModel DomSpec DomProofs DomMetric.

Lemma put_ok g ni li n l x : zget (g_nbs g) ni = Some n -> zget (nb_links n) li = Some l ->
  exists nbs' ls', put g ni li x = Some (set_nbs g nbs') /\
    zlen nbs' = zlen (g_nbs g) /\ zlen ls' = zlen (nb_links n) /\
    (forall j, zget nbs' j = if j =? ni then Some (mkNB (snd x) ls') else zget (g_nbs g) j) /\
    (forall j, zget ls' j = if j =? li then Some (fst x) else zget (nb_links n) j).
Proof.
  intros Hn Hl. unfold put. rewrite Hn.
  destruct (zset_some (nb_links n) li (fst x) (zget_bound _ _ _ Hl)) as (ls & S1). rewrite S1.
  destruct (zset_some (g_nbs g) ni (mkNB (snd x) ls) (zget_bound _ _ _ Hn)) as (nbs & S2). rewrite S2.
  exists nbs, ls. split; [reflexivity|]. split; [eapply zset_len; eauto|]. split; [eapply zset_len; eauto|].
  split; intros j; eapply zget_zset; eauto.
Qed.

Lemma Forall_zget {A} (P : A -> Prop) (l : list A) : Forall P l <-> forall i x, zget l i = Some x -> P x.
Proof.
  split.
  - intros F i x H. rewrite Forall_forall in F. apply F. unfold zget in H. destruct (i <? 0); [discriminate|].
    eapply nth_error_In; eauto.
  - intros H. apply Forall_forall. intros x I. apply In_nth_error in I. destruct I as (k & I).
    apply (H (Z.of_nat k)). unfold zget. destruct (Z.ltb_spec (Z.of_nat k) 0); [lia|]. now rewrite Nat2Z.id.
Qed.
Lemma In_zget' {A} (l : list A) x : In x l <-> exists i, zget l i = Some x.
Proof.
  split.
  - intros I. apply In_nth_error in I. destruct I as (k & I). exists (Z.of_nat k). unfold zget.
    destruct (Z.ltb_spec (Z.of_nat k) 0); [lia|]. now rewrite Nat2Z.id.
  - intros (i & H). unfold zget in H. destruct (i <? 0); [discriminate|]. eapply nth_error_In; eauto.
Qed.

Lemma at_link_put g ni li n l x l' nd' g' : at_link g ni li n l -> x = (l', nd') -> zlen (k_data l') = 4 -> zlen nd' = 4 ->
  Forall (fun t => zlen t = 4) (k_2hop l') -> put g ni li x = Some g' ->
  exists n', at_link g' ni li n' l' /\ nb_data n' = nd' /\
    (forall j, j <> li -> zget (nb_links n') j = zget (nb_links n) j) /\
    (forall j, j <> ni -> zget (g_nbs g') j = zget (g_nbs g) j) /\
    zlen (g_nbs g') = zlen (g_nbs g) /\ zlen (nb_links n') = zlen (nb_links n) /\
    g' = set_nbs g (g_nbs g').
Proof.
  intros (O & F & Hn & Hl) -> L1 L2 L3 P. destruct (put_ok g ni li n l (l', nd') Hn Hl) as (nbs' & ls' & P1 & P2 & P3 & P4 & P5).
  assert (g' = set_nbs g nbs') by congruence. subst g'. clear P P1. cbn [fst snd] in *.
  exists (mkNB nd' ls'). split; [|split; [reflexivity|split; [|split; [|split; [|split]]]]].
  - split; [exact O|]. split; [|split].
    + apply Forall_zget. intros j m Hm. cbn [g_nbs set_nbs] in Hm. rewrite P4 in Hm.
      destruct (Z.eqb_spec j ni) as [->|]; [|eapply (proj1 (Forall_zget shape (g_nbs g)) F); eauto].
      injection Hm as <-. split; [exact L2|]. apply Forall_zget. intros k y Hy. cbn [nb_links] in Hy. rewrite P5 in Hy.
      destruct (Z.eqb_spec k li) as [->|]; [injection Hy as <-; auto|].
      destruct ((proj1 (Forall_zget shape (g_nbs g)) F) _ _ Hn) as (_ & FL). eapply (proj1 (Forall_zget _ _) FL); eauto.
    + cbn [g_nbs set_nbs]. rewrite P4, Z.eqb_refl. reflexivity.
    + cbn [nb_links]. rewrite P5, Z.eqb_refl. reflexivity.
  - intros j Hj. cbn [nb_links]. rewrite P5. destruct (Z.eqb_spec j li); [lia|auto].
  - intros j Hj. cbn [g_nbs set_nbs]. rewrite P4. destruct (Z.eqb_spec j ni); [lia|auto].
  - exact P2.
  - exact P3.
  - reflexivity.
Qed.

Lemma at_link_shape g ni li n l : at_link g ni li n l ->
  zlen (nb_data n) = 4 /\ zlen (k_data l) = 4 /\ Forall (fun t => zlen t = 4) (k_2hop l).
Proof.
  intros (O & F & Hn & Hl). destruct ((proj1 (Forall_zget shape (g_nbs g)) F) _ _ Hn) as (L & FL).
  split; auto. apply (proj1 (Forall_zget _ _) FL) in Hl. exact Hl.
Qed.

Lemma put_some g ni li n l x : at_link g ni li n l -> exists g', put g ni li x = Some g'.
Proof.
  intros (O & F & Hn & Hl). destruct (put_ok g ni li n l x Hn Hl) as (nbs' & ls' & P1 & _). eauto.
Qed.

Lemma same_rest_trans g g1 g2 ni li n n1 n2 : same_rest g g1 ni li n n1 -> same_rest g1 g2 ni li n1 n2 -> same_rest g g2 ni li n n2.
Proof.
  intros (A1 & A2 & A3 & A4 & A5) (B1 & B2 & B3 & B4 & B5). split; [|split; [|split; [|split]]]; try congruence.
  - intros j Hj. rewrite B1 by auto. auto.
  - intros j Hj. rewrite B2 by auto. auto.
Qed.

Lemma any_lmpr_is ds nbs : Forall shape nbs -> zlen ds <= 4 -> exists b, any_lmpr 0 ds nbs = Some b /\ (b = true <-> is_mpr ds nbs).
Proof.
  intros F L. destruct (any_lmpr_ok nbs) with (ds := ds) (i := 0) as (b & H1 & H2); [|lia|lia|].
  - eapply Forall_impl; [|exact F]. intros a (H & _). exact H.
  - exists b. split; auto.
Qed.

Definition types_of (ds dr : list dom) : bytes :=
  match (if zlen ds =? 1 then None else Some (map d_ext ds)) with
  | None => firstn 1 (map d_ext dr) | Some _ => map d_ext dr end.

Lemma process_mpr_ok g ni li n l ds snd_nd sl v : at_link g ni li n l -> doms_ok ds -> agree ds (g_doms g) ->
  zlen snd_nd = 4 -> hello_mpr ds snd_nd sl = Some (Some v) ->
  exists g' n', process_mpr g (types_of ds (g_doms g)) ni li (Some v) = Some g' /\
    at_link g' ni li n' (set_lfmpr (k_nfmpr sl) l) /\ same_rest g g' ni li n n' /\
    g_fwill g' = g_fwill g /\ g_ftmp g' = g_ftmp g /\ g_tmp g' = g_tmp g /\
    (g_mpr g' = true <-> is_mpr (g_doms g') (g_nbs g')) /\
    (forall i d, zget (g_doms g) i = Some d -> exists x y, zget (nb_data n) i = Some x /\ zget (nb_data n') i = Some y /\
       y = set_lmpr (n_lmpr y) x /\ (n_lmpr y = true <-> selected_for ds snd_nd (d_ext d))) /\
    (forall j, zlen (g_doms g) <= j -> zget (nb_data n') j = zget (nb_data n) j).
Proof.
  intros A Os Ag Ls Hv. destruct (at_link_shape _ _ _ _ _ A) as (L1 & L2 & L3).
  pose proof A as (Or & F & Hn & Hl). unfold process_mpr. rewrite Hn, Hl.
  destruct (mpr_flags_ok ds snd_nd sl (g_doms g) l (nb_data n) Os Or Ag Ls L1) as (v' & V1 & nd' & V2 & V3 & V4 & V5).
  assert (v' = v) by congruence. subst v'. unfold types_of. rewrite V2.
  destruct (put_some g ni li n l (set_lfmpr (k_nfmpr sl) l, nd') A) as (g1 & P). rewrite P.
  destruct (at_link_put _ _ _ _ _ _ (set_lfmpr (k_nfmpr sl) l) nd' _ A eq_refl L2 V3 L3 P) as (n' & B1 & B2 & B3 & B4 & B5 & B6 & B7).
  pose proof B1 as (_ & F1 & _). assert (g_doms g1 = g_doms g) as D by (rewrite B7; reflexivity).
  destruct (any_lmpr_is (g_doms g1) (g_nbs g1) F1) as (b & C1 & C2); [rewrite D; apply Or|]. rewrite C1.
  exists (set_gmpr g1 b), n'. split; [reflexivity|]. split; [exact B1|]. split.
  { unfold same_rest. cbn [g_nbs g_doms set_gmpr]. auto 10. }
  split; [rewrite B7; reflexivity|]. split; [rewrite B7; reflexivity|]. split; [rewrite B7; reflexivity|].
  split; [exact C2|]. rewrite B2. split; auto.
Qed.

(** the TLVs of our own address *)
Definition mpr_step (g : node) (ni li : Z) (types : bytes) (mpr : option bytes) (fl : bool) (Q : dom -> bool -> Prop) : Prop :=
  forall g0 n l, at_link g0 ni li n l -> g_doms g0 = g_doms g ->
  exists g' n', process_mpr g0 types ni li mpr = Some g' /\
    at_link g' ni li n' (set_lfmpr fl l) /\ same_rest g0 g' ni li n n' /\
    g_fwill g' = g_fwill g0 /\ g_ftmp g' = g_ftmp g0 /\ g_tmp g' = g_tmp g0 /\
    (mpr <> None -> (g_mpr g' = true <-> is_mpr (g_doms g') (g_nbs g'))) /\
    (forall i d, zget (g_doms g) i = Some d -> exists x y, zget (nb_data n) i = Some x /\ zget (nb_data n') i = Some y /\
       y = set_lmpr (n_lmpr y) x /\ Q d (n_lmpr y)).

Lemma process_linkdata_ok g ni li n l types mpr fl Q tlvs : at_link g ni li n l -> mpr_step g ni li types mpr fl Q ->
  exists g' n' l', process_linkdata g types ni li mpr tlvs = Some g' /\
    at_link g' ni li n' l' /\ same_rest g g' ni li n n' /\
    g_fwill g' = g_fwill g /\ g_ftmp g' = g_ftmp g /\ g_tmp g' = g_tmp g /\
    (mpr <> None -> (g_mpr g' = true <-> is_mpr (g_doms g') (g_nbs g'))) /\
    k_lfmpr l' = fl /\ k_status l' = k_status l /\ k_nfmpr l' = k_nfmpr l /\ k_2hop l' = k_2hop l /\
    (forall i d, zget (g_doms g) i = Some d -> exists x y p o, zget (nb_data n) i = Some x /\ zget (nb_data n') i = Some y /\
       n_in y = n_in x /\ n_best y = n_best x /\ n_bestm y = n_bestm x /\ n_nmpr y = n_nmpr x /\
       Q d (n_lmpr y) /\
       zget (k_data l) i = Some p /\ zget (k_data l') i = Some (fst p, o) /\
       out_after (g_doms g) tlvs i METRIC_INFINITE o).
Proof.
  intros A MS. destruct (at_link_shape _ _ _ _ _ A) as (L1 & L2 & L3).
  pose proof A as (Or & F & Hn & Hl). pose proof Or as ((O1 & O2) & O3 & _). unfold process_linkdata. rewrite Hn, Hl.
  destruct (reset_out_ok (g_doms g) 0 (k_data l) ltac:(lia) ltac:(lia)) as (kd & R1 & R2 & R3). rewrite R1.
  destruct (each_dom_ok (fun _ _ x => Some (set_nout METRIC_INFINITE (set_nwill 0 (set_lmpr false x)))) (g_doms g) 0 (nb_data n))
    as (nd & E1 & E2 & E3 & E4); [lia|lia|eauto|]. rewrite E1.
  destruct (put_some g ni li n l (set_kdata kd l, nd) A) as (g1 & P1). rewrite P1.
  destruct (at_link_put _ _ _ _ _ _ (set_kdata kd l) nd _ A eq_refl ltac:(cbn; lia) ltac:(lia) L3 P1) as (n1 & B1 & B2 & B3 & B4 & B5 & B6 & B7).
  assert (g_doms g1 = g_doms g) as D1 by (rewrite B7; reflexivity).
  destruct (MS g1 n1 _ B1 D1) as (g2 & n2 & M1 & M2 & M3 & M4 & M5 & M6 & M7 & M8).
  rewrite M1. pose proof M2 as (_ & _ & Hn2 & Hl2). rewrite Hn2, Hl2.
  assert (g_doms g2 = g_doms g) as D2. { destruct M3 as (_ & _ & _ & _ & D). congruence. }
  destruct (at_link_shape _ _ _ _ _ M2) as (K1 & K2 & K3).
  destruct (link_tlvs_ok (g_doms g2)) with (tlvs := tlvs) (l := set_lfmpr fl (set_kdata kd l)) (nd := nb_data n2)
    as (kd3 & nd3 & T1 & T2 & T3 & T4 & T5); auto; try (rewrite D2; auto; lia).
  rewrite T1.
  destruct (put_some g2 ni li n2 _ (set_kdata kd3 (set_lfmpr fl (set_kdata kd l)), nd3) M2) as (g3 & P3). rewrite P3.
  destruct (at_link_put _ _ _ _ _ _ (set_kdata kd3 (set_lfmpr fl (set_kdata kd l))) nd3 _ M2 eq_refl T2 T3 K3 P3) as (n3 & C1 & C2 & C3 & C4 & C5 & C6 & C7).
  assert (g_doms g3 = g_doms g) as D3 by (rewrite C7; cbn; auto).
  exists g3, n3, (set_kdata kd3 (set_lfmpr fl (set_kdata kd l))).
  split; [auto|]. split; [auto|]. split.
  { apply (same_rest_trans g g1 g3 ni li n n1 n3); [split; auto|].
    apply (same_rest_trans g1 g2 g3 ni li n1 n2 n3); [auto|]. split; [auto|]. split; [auto|]. split; [auto|]. split; [auto|congruence]. }
  split; [rewrite C7; cbn; rewrite M4, B7; reflexivity|].
  split; [rewrite C7; cbn; rewrite M5, B7; reflexivity|].
  split; [rewrite C7; cbn; rewrite M6, B7; reflexivity|].
  split.
  { assert (g_mpr g3 = g_mpr g2) as EM by (rewrite C7; reflexivity). intros NM. specialize (M7 NM). rewrite EM, M7. rewrite D2, D3. unfold is_mpr.
    pose proof C1 as (_ & _ & Hn3 & _).
    split; intros (i & m & x & Bi & Im & Hx & Hf); apply In_zget' in Im; destruct Im as (j & Hj);
      (destruct (Z.eq_dec j ni) as [->|Nj]).
    - assert (m = n2) by congruence. subst m. destruct (T4 _ _ Hx) as (o & Ho). exists i, n3, (set_nout o x).
      split; auto. split; [apply In_zget'; eauto|]. split; [now rewrite C2|auto].
    - exists i, m, x. split; auto. split; [apply In_zget'; exists j; rewrite C4; auto|auto].
    - assert (m = n3) by congruence. subst m. rewrite C2 in Hx.
      destruct (zget_Some (nb_data n2) i) as (y & Hy); [pose proof (zget_bound _ _ _ Hx); lia|].
      destruct (T4 _ _ Hy) as (o & Ho). assert (x = set_nout o y) by congruence. subst x.
      exists i, n2, y. split; auto. split; [apply In_zget'; eauto|auto].
    - exists i, m, x. split; auto. split; [apply In_zget'; exists j; rewrite <- C4; auto|auto]. }
  do 4 (split; [reflexivity|]).
  intros i d Hd. pose proof (zget_bound _ _ _ Hd) as Bi.
  destruct (zget_Some (nb_data n) i ltac:(lia)) as (x & Hx). destruct (zget_Some (k_data l) i ltac:(lia)) as (p & Hp).
  specialize (E4 i d x Hd). replace (0 + i) with i in E4 by lia. specialize (E4 Hx).
  destruct (M8 i d Hd) as (x1 & y & X1 & Y1 & Y2 & Y3). rewrite B2, E4 in X1. injection X1 as <-.
  destruct (T4 i y Y1) as (o2 & Ho2).
  pose proof (R3 i p Hp) as Rp.
  destruct (Z.leb_spec 0 i); [|lia]. destruct (Z.ltb_spec i (0 + zlen (g_doms g))); [|lia]. cbn [andb] in Rp.
  destruct (T5 i _ Rp) as (o & Ho & Oo). cbn [fst snd] in *. rewrite D2 in Oo.
  exists x, (set_nout o2 y), p, o. split; [auto|]. split; [now rewrite C2|].
  split; [rewrite Y2; reflexivity|]. split; [rewrite Y2; reflexivity|]. split; [rewrite Y2; reflexivity|]. split; [rewrite Y2; reflexivity|].
  split; [exact Y3|]. auto.
Qed.


(** the MPR TLV of a sender with agreeing domains *)
Lemma mpr_step_sender g ni li ds snd_nd sl v : doms_ok ds -> agree ds (g_doms g) -> zlen snd_nd = 4 ->
  hello_mpr ds snd_nd sl = Some (Some v) ->
  mpr_step g ni li (types_of ds (g_doms g)) (Some v) (k_nfmpr sl) (fun d b => b = true <-> selected_for ds snd_nd (d_ext d)).
Proof.
  intros Os Ag Ls Hv g0 n l A D. rewrite <- D in *.
  destruct (process_mpr_ok g0 ni li n l ds snd_nd sl v A Os Ag Ls Hv) as (g' & n' & M1 & M2 & M3 & M4 & M5 & M6 & M7 & M8 & M9).
  exists g', n'. auto 15.
Qed.

(** any MPR TLV *)
Lemma mpr_step_any g ni li types mpr : at_doms (g_doms g) 0 types -> (forall v, mpr = Some v -> 1 <= zlen v) ->
  exists fl, mpr_step g ni li types mpr fl (fun _ _ => True).
Proof.
  intros AT Hv. exists (match mpr with Some (b :: _) => negb (Z.land b MPR_FLOODING =? 0) | _ => false end).
  intros g0 n l A D. destruct (at_link_shape _ _ _ _ _ A) as (L1 & L2 & L3).
  pose proof A as (Or & F & Hn & Hl). unfold process_mpr. rewrite Hn, Hl. rewrite <- D in *.
  set (fl := match mpr with Some (b :: _) => negb (Z.land b MPR_FLOODING =? 0) | _ => false end).
  assert (zlen (g_doms g0) <= 4) as L4 by apply Or.
  assert (exists nd', process_mpr_flags (g_doms g0) types mpr l (nb_data n) = Some (set_lfmpr fl l, nd') /\ zlen nd' = 4 /\
     forall i d, zget (g_doms g0) i = Some d -> exists x y, zget (nb_data n) i = Some x /\ zget nd' i = Some y /\ y = set_lmpr (n_lmpr y) x)
    as (nd' & V2 & V3 & V4).
  { unfold process_mpr_flags.
    destruct (each_dom_ok (fun _ _ x => Some (set_lmpr false x)) (g_doms g0) 0 (nb_data n)) as (nd0 & E1 & E2 & E3 & E4);
      [lia|lia|eauto|]. rewrite E1.
    assert (forall i d, zget (g_doms g0) i = Some d -> exists x, zget (nb_data n) i = Some x /\ zget nd0 i = Some (set_lmpr false x)) as E5.
    { intros i d Hd. pose proof (zget_bound _ _ _ Hd). destruct (zget_Some (nb_data n) i ltac:(lia)) as (x & Hx).
      exists x. split; auto. apply (E4 i d x Hd Hx). }
    destruct mpr as [v|].
    - specialize (Hv v eq_refl). destruct v as [|b v]; [unfold zlen in Hv; cbn in Hv; lia|].
      change (zget (b :: v) 0) with (Some b).
      destruct (proc_mpr_ok (g_doms g0) (b :: v)) with (types := types) (i := 0) (nd := nd0) as (nd1 & P1 & P2 & P3); auto; try lia; try apply Or.
      rewrite P1. exists nd1. split; [reflexivity|]. split; [lia|]. intros i d Hd. destruct (E5 i d Hd) as (x & X1 & X2).
      exists x. pose proof (zget_bound _ _ _ Hd) as Bi. specialize (P3 i). rewrite X2 in P3.
      destruct ((0 <=? i) && (i <? 0 + zlen types) && (Z.shiftr (i + 1) 3 <? zlen (b :: v))) eqn:C.
      + rewrite !andb_true_iff, Z.ltb_lt in C. destruct C as (_ & C).
        destruct (zget_Some (b :: v) (Z.shiftr (i + 1) 3)) as (b' & Hb'); [split; [apply Z.shiftr_nonneg; lia|lia]|].
        rewrite Hb' in P3. eexists. split; [auto|]. split; [exact P3|reflexivity].
      + eexists. split; [auto|]. split; [exact P3|reflexivity].
    - exists nd0. split; [reflexivity|]. split; [lia|]. intros i d Hd. destruct (E5 i d Hd) as (x & X1 & X2). exists x, (set_lmpr false x). auto. }
  rewrite V2. destruct (put_some g0 ni li n l (set_lfmpr fl l, nd') A) as (g1 & P). rewrite P.
  destruct (at_link_put _ _ _ _ _ _ (set_lfmpr fl l) nd' _ A eq_refl L2 V3 L3 P) as (n' & B1 & B2 & B3 & B4 & B5 & B6 & B7).
  pose proof B1 as (_ & F1 & _). assert (g_doms g1 = g_doms g0) as D1 by (rewrite B7; reflexivity).
  destruct (any_lmpr_is (g_doms g1) (g_nbs g1) F1) as (b & C1 & C2); [rewrite D1; lia|]. rewrite C1.
  exists (match mpr with Some _ => set_gmpr g1 b | None => g1 end), n'. split; [destruct mpr; reflexivity|].
  split; [destruct mpr; exact B1|]. split; [unfold same_rest; destruct mpr; cbn [g_nbs g_doms set_gmpr]; auto 10|].
  split; [destruct mpr; cbn; rewrite B7; reflexivity|]. split; [destruct mpr; cbn; rewrite B7; reflexivity|].
  split; [destruct mpr; cbn; rewrite B7; reflexivity|].
  split; [destruct mpr; [intros _; exact C2|congruence]|].
  rewrite B2. intros i d Hd. destruct (V4 i d Hd) as (x & y & X). exists x, y. tauto.
Qed.

(** * One HELLO *)
Lemma receive_gen g ni li n l types fw tmp fl Q ty will mpr tlvs :
  at_link g ni li n l -> process_types (g_doms g) ty = Some types -> process_will (g_doms g) types will = Some (fw, tmp) ->
  zlen tmp = zlen (g_doms g) -> (forall g0, g_doms g0 = g_doms g -> mpr_step g0 ni li types mpr fl Q) ->
  exists g' n' l', receive g ni li ty will mpr tlvs = Some g' /\
    at_link g' ni li n' l' /\ same_rest g g' ni li n n' /\
    (mpr <> None -> (g_mpr g' = true <-> is_mpr (g_doms g') (g_nbs g'))) /\
    k_fwill l' = fw /\
    k_lfmpr l' = fl /\ k_status l' = k_status l /\ k_nfmpr l' = k_nfmpr l /\ k_2hop l' = k_2hop l /\
    (forall i d, zget (g_doms g) i = Some d -> exists x y p o, zget (nb_data n) i = Some x /\ zget (nb_data n') i = Some y /\
       n_in y = n_in x /\ n_best y = n_best x /\ n_bestm y = n_bestm x /\ n_nmpr y = n_nmpr x /\
       zget tmp i = Some (n_will y) /\
       Q d (n_lmpr y) /\
       zget (k_data l) i = Some p /\ zget (k_data l') i = Some (fst p, o) /\
       out_after (g_doms g) tlvs i METRIC_INFINITE o).
Proof.
  intros A W2 W3 W4 MS. pose proof A as (Or & F & Hn & Hl). pose proof Or as ((O1 & O2) & O3 & _).
  unfold receive. rewrite W2, W3. cbn [fst snd].
  set (g0 := mkNode (g_doms g) (g_fwill g) fw tmp (g_nbs g) (g_mpr g)).
  destruct (process_linkdata_ok g0 ni li n l types mpr fl Q tlvs A (MS g0 eq_refl))
    as (g1 & n1 & l1 & P1 & P2 & P3 & P4 & P5 & P6 & P7 & P8 & P9 & P10 & P11 & P12).
  rewrite P1. pose proof P2 as (_ & _ & Hn1 & Hl1). rewrite Hn1, Hl1.
  assert (g_doms g1 = g_doms g) as D1. { destruct P3 as (_ & _ & _ & _ & D). exact D. }
  destruct (at_link_shape _ _ _ _ _ P2) as (K1 & K2 & K3).
  destruct (store_will_ok (g_doms g1) (g_ftmp g1) (g_tmp g1) l1 (nb_data n1)) as (nd' & S1 & S2 & S3 & S4).
  { rewrite D1. lia. } { rewrite D1, P6. exact W4. }
  rewrite S1. destruct (put_some g1 ni li n1 _ (set_fwill (g_ftmp g1) l1, nd') P2) as (g2 & QE). rewrite QE.
  destruct (at_link_put _ _ _ _ _ _ (set_fwill (g_ftmp g1) l1) nd' _ P2 eq_refl K2 ltac:(lia) K3 QE) as (n2 & C1 & C2 & C3 & C4 & C5 & C6 & C7).
  assert (g_doms g2 = g_doms g1) as D2 by (rewrite C7; reflexivity).
  exists g2, n2, (set_fwill (g_ftmp g1) l1). split; [auto|]. split; [auto|]. split.
  { apply (same_rest_trans g g1 g2 ni li n n1 n2); [exact P3|]. split; auto 10. }
  split.
  { assert (g_mpr g2 = g_mpr g1) as EM by (rewrite C7; reflexivity). intros NM. specialize (P7 NM). rewrite EM, P7, D2. unfold is_mpr.
    pose proof C1 as (_ & _ & Hn2 & _).
    split; intros (i & m & x & Bi & Im & Hx & Hff); apply In_zget' in Im; destruct Im as (j & Hj);
      (destruct (Z.eq_dec j ni) as [->|Nj]).
    - assert (m = n1) by congruence. subst m. destruct (S4 i x Hx ltac:(lia)) as (w & _ & Ho). exists i, n2, (set_nwill w x).
      split; auto. split; [apply In_zget'; eauto|]. split; [now rewrite C2|auto].
    - exists i, m, x. split; auto. split; [apply In_zget'; exists j; rewrite C4; auto|auto].
    - assert (m = n2) by congruence. subst m. rewrite C2 in Hx.
      destruct (zget_Some (nb_data n1) i) as (y & Hy); [pose proof (zget_bound _ _ _ Hx); lia|].
      destruct (S4 i y Hy ltac:(lia)) as (w & _ & Ho). assert (x = set_nwill w y) by congruence. subst x.
      exists i, n1, y. split; auto. split; [apply In_zget'; eauto|auto].
    - exists i, m, x. split; auto. split; [apply In_zget'; exists j; rewrite <- C4; auto|auto]. }
  split; [cbn; rewrite P5; reflexivity|]. split; [exact P8|]. split; [exact P9|]. split; [exact P10|]. split; [exact P11|].
  intros i d Hd. destruct (P12 i d Hd) as (x & y & p & o & X1 & X2 & X3 & X4 & X5 & X6 & X7 & X8 & X9 & X10).
  pose proof (zget_bound _ _ _ Hd) as Bi.
  destruct (S4 i y X2) as (w & Sw & Sy); [rewrite D1; lia|].
  rewrite P6 in Sw. cbn [g_tmp g0] in Sw.
  exists x, (set_nwill w y), p, o. rewrite C2. cbn [n_in n_best n_bestm n_nmpr n_will n_lmpr set_nwill]. auto 15.
Qed.


Lemma receive_ok g ni li n l ds fw snd_nd sl ty will mpr tlvs :
  at_link g ni li n l -> doms_ok ds -> 0 <= fw <= 15 -> agree ds (g_doms g) -> zlen snd_nd = 4 ->
  hello_tlvs ds fw = Some (ty, will) -> hello_mpr ds snd_nd sl = Some mpr ->
  exists g' n' l', receive g ni li ty (Some will) mpr tlvs = Some g' /\
    at_link g' ni li n' l' /\ same_rest g g' ni li n n' /\
    (g_mpr g' = true <-> is_mpr (g_doms g') (g_nbs g')) /\
    k_fwill l' = fw /\
    k_lfmpr l' = k_nfmpr sl /\ k_status l' = k_status l /\ k_nfmpr l' = k_nfmpr l /\ k_2hop l' = k_2hop l /\
    (forall i d, zget (g_doms g) i = Some d -> exists x y p o, zget (nb_data n) i = Some x /\ zget (nb_data n') i = Some y /\
       n_in y = n_in x /\ n_best y = n_best x /\ n_bestm y = n_bestm x /\ n_nmpr y = n_nmpr x /\
       will_for ds (d_ext d) (n_will y) /\
       (n_lmpr y = true <-> selected_for ds snd_nd (d_ext d)) /\
       zget (k_data l) i = Some p /\ zget (k_data l') i = Some (fst p, o) /\
       out_after (g_doms g) tlvs i METRIC_INFINITE o).
Proof.
  intros A Os Hf Ag Ls Ht Hm. pose proof A as (Or & F & Hn & Hl).
  destruct (will_ok ds fw (g_doms g) Os Or Hf Ag) as (ty' & will' & types & tmp & W1 & W2 & W3 & W4 & W5).
  assert (ty' = ty /\ will' = will) as (-> & ->) by (split; congruence).
  destruct (hello_mpr_ok ds snd_nd sl Os Ls) as (b & M1 & _). assert (mpr = Some [b]) by congruence. subst mpr.
  assert (types = types_of ds (g_doms g)) as ET.
  { destruct (hello_tlvs_ok ds fw Os Hf) as (w & H1 & _). rewrite H1 in Ht. injection Ht as <- <-.
    unfold types_of. rewrite (process_types_ok _ _ Or) in W2. congruence. }
  subst types.
  destruct (receive_gen g ni li n l _ _ _ (k_nfmpr sl) (fun d b => b = true <-> selected_for ds snd_nd (d_ext d)) _ _ (Some [b]) tlvs A W2 W3 W4)
    as (g' & n' & l' & R1 & R2 & R3 & R4 & R5 & R6 & R7 & R8 & R9 & R10).
  { intros g0 D. rewrite <- D in *. apply mpr_step_sender; auto. }
  exists g', n', l'. split; [auto|]. split; [auto|]. split; [auto|]. split; [apply R4; discriminate|].
  do 5 (split; [auto|]). intros i d Hd. destruct (R10 i d Hd) as (x & y & p & o & X1 & X2 & X3 & X4 & X5 & X6 & X7 & X8).
  destruct (W5 i d Hd) as (w & T1 & T2). assert (w = n_will y) by congruence. subst w. exists x, y, p, o. tauto.
Qed.

(** any HELLO whose TLVs have at least one byte *)
Lemma receive_any g ni li n l ty will mpr tlvs : at_link g ni li n l ->
  (forall v, will = Some v -> 1 <= zlen v) -> (forall v, mpr = Some v -> 1 <= zlen v) ->
  exists g' n' l', receive g ni li ty will mpr tlvs = Some g' /\
    at_link g' ni li n' l' /\ same_rest g g' ni li n n' /\ k_status l' = k_status l /\
    (forall i d, zget (g_doms g) i = Some d -> exists p o,
       zget (k_data l) i = Some p /\ zget (k_data l') i = Some (fst p, o) /\
       out_after (g_doms g) tlvs i METRIC_INFINITE o).
Proof.
  intros A Hw Hm. pose proof A as (Or & F & Hn & Hl).
  pose proof (process_types_ok (g_doms g) ty Or) as PT.
  set (types := match ty with None => firstn 1 (map d_ext (g_doms g)) | Some _ => map d_ext (g_doms g) end) in *.
  assert (at_doms (g_doms g) 0 types) as AT. { unfold types. destruct ty; [apply at_doms_map|apply at_doms_first]. }
  assert (exists fw tmp, process_will (g_doms g) types will = Some (fw, tmp) /\ zlen tmp = zlen (g_doms g)) as (fw & tmp & W1 & W2).
  { unfold process_will. destruct will as [v|].
    - specialize (Hw v eq_refl). destruct (zget_Some v 0 ltac:(lia)) as (b & Hb). rewrite Hb.
      destruct (proc_will_ok (g_doms g) v) with (types := types) (i := 0) (tmp := map (fun _ : dom => WILL_NEVER) (g_doms g)) as (tmp & T1 & T2 & _);
        auto; try lia; try apply Or; try apply zlen_map. rewrite T1. eauto.
    - eexists _, _. split; [reflexivity|]. apply zlen_map. }
  destruct (mpr_step_any g ni li types mpr AT Hm) as (fl & MS).
  destruct (receive_gen g ni li n l _ _ _ fl (fun _ _ => True) _ _ mpr tlvs A PT W1 W2)
    as (g' & n' & l' & R1 & R2 & R3 & R4 & R5 & R6 & R7 & R8 & R9 & R10).
  { intros g0 D. intros g1 n1 l1 A1 D1. rewrite D in *. exact (MS g1 n1 l1 A1 D1). }
  exists g', n', l'. do 4 (split; [auto|]). intros i d Hd. destruct (R10 i d Hd) as (x & y & p & o & X). exists p, o. tauto.
Qed.

(** * Neighbor metrics *)
Lemma touched_id i t : touched i false t t.
Proof. split; auto. intros j x H. exists x. auto. Qed.
Lemma Forall2_id {A} (P : A -> A -> Prop) l : (forall x, P x x) -> Forall2 P l l.
Proof. intros H. induction l; auto. Qed.

Lemma touch_2hop_ok i : 0 <= i < 4 -> forall ts ch, Forall (fun t => zlen t = 4) ts ->
  exists ch' ts', touch_2hop i ch ts = Some (ch', ts') /\ Forall2 (touched i true) ts ts' /\
  (ch' = true <-> ch = true \/ exists t x, In t ts /\ zget t i = Some x /\ t_out x <> t_last x).
Proof.
  intros Hi. induction ts as [|t ts IH]; intros ch F; cbn [touch_2hop].
  - exists ch, []. split; [auto|]. split; [auto|]. split; [auto|]. intros [?|(t & x & [] & _)]; auto.
  - inversion F as [|? ? Ft F']; subst. destruct (zget_Some t i ltac:(lia)) as (x & Hx). rewrite Hx.
    destruct (zset_some t i (mkTD (t_in x) (t_out x) (t_out x)) ltac:(lia)) as (t' & S1). rewrite S1.
    destruct (IH (ch || negb (t_out x =? t_last x)) F') as (ch' & ts' & H1 & H2 & H3). rewrite H1. cbn [fst snd].
    exists ch', (t' :: ts'). split; [auto|]. split.
    { constructor; auto. split; [eapply zset_len; eauto|]. intros j y Hy. rewrite (zget_zset _ _ _ _ _ S1). cbn [andb].
      destruct (Z.eqb_spec j i) as [->|]; [|exists y; auto]. assert (y = x) by congruence. subst. eexists. split; [reflexivity|]. auto. }
    rewrite H3, orb_true_iff, negb_true_iff, Z.eqb_neq. split.
    + intros [[?|?]|(u & z & I & R)]; [auto|right; exists t, x; cbn; auto|right; exists u, z; cbn; auto].
    + intros [?|(u & z & [<-|I] & Hz & R)]; [auto| |right; exists u, z; auto]. left. right. congruence.
Qed.

Definition m_in (i : Z) (l : lnk) : list Z := match zget (k_data l) i with Some m => [fst m] | None => [] end.
Definition m_out (i : Z) (l : lnk) : list Z := match zget (k_data l) i with Some m => [snd m] | None => [] end.

Lemma best_loop_ok i : 0 <= i < 4 -> forall ls p min mout best ch,
  Forall (fun l => zlen (k_data l) = 4 /\ Forall (fun t => zlen t = 4) (k_2hop l)) ls ->
  exists min' mout' best' ch' ls', best_loop i p ls min mout best ch = Some (min', mout', best', ch', ls') /\
  Forall2 (lnk_touched i) ls ls' /\
  (Forall (fun x => min' <= x) (min :: flat_map (m_in i) (filter is_sym ls)) /\ In min' (min :: flat_map (m_in i) (filter is_sym ls))) /\
  (Forall (fun x => mout' <= x) (mout :: flat_map (m_out i) (filter is_sym ls)) /\ In mout' (mout :: flat_map (m_out i) (filter is_sym ls))) /\
  ((mout' = mout /\ best' = best) \/
   (mout' < mout /\ exists k l x, best' = Some (p + k) /\ zget ls k = Some l /\ k_status l = Symmetric /\ zget (k_data l) i = Some x /\
      snd x = mout' /\ forall q l' x', 0 <= q < k -> zget ls q = Some l' -> k_status l' = Symmetric -> zget (k_data l') i = Some x' -> mout' < snd x')) /\
  (ch' = true <-> ch = true \/ exists l t x, In l (filter is_sym ls) /\ In t (k_2hop l) /\ zget t i = Some x /\ t_out x <> t_last x).
Proof.
  intros Hi. induction ls as [|l ls IH]; intros p min mout best ch F; cbn [best_loop].
  - exists min, mout, best, ch, []. cbn. split; [auto|]. split; [auto|].
    split; [split; [constructor; [lia|auto]|auto]|]. split; [split; [constructor; [lia|auto]|auto]|].
    split; [auto|]. split; [auto|]. intros [?|(l & t & x & [] & _)]; auto.
  - inversion F as [|? ? (Fl & Ft) F']; subst.
    destruct (k_status l) eqn:St.
    1-3: (destruct (IH (p + 1) min mout best ch F') as (a & b & c & d & ls' & H1 & H2 & H3 & H4 & H5 & H6); rewrite H1;
      exists a, b, c, d, (l :: ls'); split; [reflexivity|]; split;
      [constructor; [split; [destruct l; reflexivity|unfold is_sym; rewrite St; apply Forall2_id; apply touched_id]|auto]|];
      cbn [filter]; replace (is_sym l) with false by (unfold is_sym; now rewrite St);
      split; [exact H3|]; split; [exact H4|]; split;
      [destruct H5 as [H5|(H5 & k & l0 & x & K1 & K2 & K3 & K4 & K5 & K6)]; [left; auto|right; split; [auto|];
         pose proof (zget_bound _ _ _ K2); exists (k + 1), l0, x; split; [rewrite K1; f_equal; lia|];
         rewrite zget_cons1 by lia; replace (k + 1 - 1) with k by lia; split; [auto|]; split; [auto|]; split; [auto|]; split; [auto|];
         intros q l' x' Hq Hl' Hs Hx'; destruct (Z.eq_dec q 0) as [->|]; [cbn in Hl'; injection Hl' as Hl'; subst l'; rewrite St in Hs; discriminate|];
         rewrite zget_cons1 in Hl' by lia; apply (K6 (q - 1) l' x'); auto; lia]|
       exact H6]).
    destruct (zget_Some (k_data l) i ltac:(lia)) as (m & Hm). rewrite Hm.
    destruct (touch_2hop_ok i Hi (k_2hop l) ch Ft) as (ch1 & ts' & T1 & T2 & T3).
    set (mo := if snd m <? mout then snd m else mout). set (be := if snd m <? mout then Some p else best).
    set (mi := if fst m <? min then fst m else min).
    destruct (IH (p + 1) mi mo be ch1 F') as (a & b & c & d & ls' & H1 & H2 & H3 & H4 & H5 & H6).
    assert ((let '(mout', best') := if snd m <? mout then (snd m, Some p) else (mout, best) in
      let min' := if fst m <? min then fst m else min in
      do y <- touch_2hop i ch (k_2hop l) ;
      do z <- best_loop i (p + 1) ls min' mout' best' (fst y) ;
      let '(a, b, c, d, ls') := z in
      Some (a, b, c, d, mkL (k_status l) (k_fwill l) (k_lfmpr l) (k_nfmpr l) (k_data l) (snd y) :: ls')) =
      Some (a, b, c, d, mkL (k_status l) (k_fwill l) (k_lfmpr l) (k_nfmpr l) (k_data l) ts' :: ls')) as E.
    { rewrite T1. cbn [fst snd]. unfold mo, be, mi in H1. destruct (snd m <? mout); cbv zeta; rewrite H1; reflexivity. }
    exists a, b, c, d, (mkL (k_status l) (k_fwill l) (k_lfmpr l) (k_nfmpr l) (k_data l) ts' :: ls').
    split; [rewrite St in E |- *; exact E|]. assert (is_sym l = true) as Sy by (unfold is_sym; now rewrite St).
    split; [constructor; [split; [reflexivity|rewrite Sy; exact T2]|auto]|].
    cbn [filter]. rewrite Sy. cbn [flat_map]. unfold m_in at 1 3. unfold m_out at 1 3. rewrite Hm. cbn [app].
    split; [|split; [|split]].
    + unfold mi in H3. destruct H3 as (H3 & H3'). inversion H3; subst. cbn [In] in *.
      destruct (Z.ltb_spec (fst m) min); (split; [repeat constructor; auto; lia|]); destruct H3' as [<- |]; auto.
    + unfold mo in H4. destruct H4 as (H4 & H4'). inversion H4; subst. cbn [In] in *.
      destruct (Z.ltb_spec (snd m) mout); (split; [repeat constructor; auto; lia|]); destruct H4' as [<- |]; auto.
    + unfold mo, be in *. destruct H5 as [(H5 & H5')|(H5 & k & l0 & x & K1 & K2 & K3 & K4 & K5 & K6)].
      * destruct (Z.ltb_spec (snd m) mout); [|left; auto]. right. split; [lia|]. exists 0, l, m.
        split; [rewrite H5'; f_equal; lia|]. split; [reflexivity|]. split; [auto|]. split; [auto|]. split; [lia|]. intros; lia.
      * right. destruct (Z.ltb_spec (snd m) mout).
        -- split; [lia|]. pose proof (zget_bound _ _ _ K2). exists (k + 1), l0, x. split; [rewrite K1; f_equal; lia|].
           rewrite zget_cons1 by lia. replace (k + 1 - 1) with k by lia. split; [auto|]. split; [auto|]. split; [auto|]. split; [auto|].
           intros q l' x' Hq Hl' Hs Hx'. destruct (Z.eq_dec q 0) as [->|].
           ++ cbn in Hl'. injection Hl' as <-. assert (x' = m) by congruence. subst. lia.
           ++ rewrite zget_cons1 in Hl' by lia. apply (K6 (q - 1) l' x'); auto; lia.
        -- split; [lia|]. pose proof (zget_bound _ _ _ K2). exists (k + 1), l0, x. split; [rewrite K1; f_equal; lia|].
           rewrite zget_cons1 by lia. replace (k + 1 - 1) with k by lia. split; [auto|]. split; [auto|]. split; [auto|]. split; [auto|].
           intros q l' x' Hq Hl' Hs Hx'. destruct (Z.eq_dec q 0) as [->|].
           ++ cbn in Hl'. injection Hl' as <-. assert (x' = m) by congruence. subst. lia.
           ++ rewrite zget_cons1 in Hl' by lia. apply (K6 (q - 1) l' x'); auto; lia.
    + rewrite H6, T3. split.
      * intros [[?|(t & x & R)]|(l0 & t & x & I & R)]; [auto|right; exists l, t, x; cbn; tauto|right; exists l0, t, x; cbn; tauto].
      * intros [?|(l0 & t & x & [<-|I] & R)]; [auto|left; right; exists t, x; tauto|right; exists l0, t, x; tauto].
Qed.

Lemma recalculate_ok i n x : 0 <= i < 4 -> shape n -> zget (nb_data n) i = Some x ->
  exists ch y n', recalculate i n = Some (ch, n') /\ zget (nb_data n') i = Some y /\ shape n' /\
    (forall j, j <> i -> zget (nb_data n') j = zget (nb_data n) j) /\
    n_will y = n_will x /\ n_lmpr y = n_lmpr x /\ n_nmpr y = n_nmpr x /\
    Forall2 (lnk_touched i) (nb_links n) (nb_links n') /\
    least (metrics_in i n) (n_in y) /\ least (metrics_out i n) (n_out y) /\
    ((n_best y = None /\ n_out y = METRIC_INFINITE /\ n_bestm y = n_bestm x /\ (ch = true <-> twohop_changed i n)) \/
     (n_out y < METRIC_INFINITE /\ (exists p, n_best y = Some p /\ first_link i n (n_out y) p) /\ n_bestm y = n_out y /\
      (ch = true <-> n_out y <> n_bestm x \/ twohop_changed i n))).
Proof.
  intros Hi (L & F) Hx. unfold recalculate. rewrite Hx.
  destruct (best_loop_ok i Hi (nb_links n) 0 METRIC_INFINITE METRIC_INFINITE None false F)
    as (mi & mo & be & ch & ls & H1 & H2 & H3 & H4 & H5 & H6). rewrite H1.
  assert (forall ls, Forall2 (lnk_touched i) (nb_links n) ls -> Forall (fun l => zlen (k_data l) = 4 /\ Forall (fun t => zlen t = 4) (k_2hop l)) ls) as SH.
  { clear - F. induction (nb_links n) as [|l r IH]; intros ls T; inversion T; subst; auto. inversion F as [|? ? (F1 & F2) F3]; subst.
    constructor; auto. destruct H1 as (E & T2). split; [rewrite E; auto|]. clear E.
    revert F2 T2. generalize (is_sym l) (k_2hop l) (k_2hop y). clear. intros s a. induction a; intros b F T; inversion T; subst; auto.
    inversion F; subst. constructor; auto. destruct H1 as (E & _). congruence. }
  assert (ch = true <-> twohop_changed i n) as H6'.
  { rewrite H6. unfold twohop_changed, sym_links. split; [intros [?|?]; [discriminate|auto]|auto]. }
  destruct H5 as [(H5 & ->)|(H5 & k & l & z & -> & K2 & K3 & K4 & K5 & K6)].
  - destruct (zset_some (nb_data n) i (mkND mi mo None (n_bestm x) (n_will x) (n_lmpr x) (n_nmpr x)) ltac:(lia)) as (nd & S1).
    cbn [fst snd]. rewrite S1. exists ch, (mkND mi mo None (n_bestm x) (n_will x) (n_lmpr x) (n_nmpr x)), (mkNB nd ls).
    split; [auto|]. split; [cbn; now rewrite (zget_zset _ _ _ _ _ S1), Z.eqb_refl|].
    split; [split; [cbn; rewrite (zset_len _ _ _ _ S1); auto|cbn; auto]|].
    split; [intros j Hj; cbn; rewrite (zget_zset _ _ _ _ _ S1); destruct (Z.eqb_spec j i); [lia|auto]|].
    cbn [n_will n_lmpr n_nmpr n_in n_out n_best n_bestm nb_links]. do 4 (split; [auto|]). split; [exact H3|]. split; [exact H4|]. left. auto.
  - replace (0 + k) with k by lia. rewrite K2, K4. cbn [fst snd].
    destruct (zset_some (nb_data n) i (mkND mi mo (Some k) (snd z) (n_will x) (n_lmpr x) (n_nmpr x)) ltac:(lia)) as (nd & S1).
    rewrite S1. exists (ch || negb (n_bestm x =? snd z)), (mkND mi mo (Some k) (snd z) (n_will x) (n_lmpr x) (n_nmpr x)), (mkNB nd ls).
    split; [auto|]. split; [cbn; now rewrite (zget_zset _ _ _ _ _ S1), Z.eqb_refl|].
    split; [split; [cbn; rewrite (zset_len _ _ _ _ S1); auto|cbn; auto]|].
    split; [intros j Hj; cbn; rewrite (zget_zset _ _ _ _ _ S1); destruct (Z.eqb_spec j i); [lia|auto]|].
    cbn [n_will n_lmpr n_nmpr n_in n_out n_best n_bestm nb_links]. do 4 (split; [auto|]). split; [exact H3|]. split; [exact H4|]. right.
    split; [auto|]. split; [exists k; split; auto; exists l, z; auto 10|]. split; [auto|].
    rewrite orb_true_iff, negb_true_iff, Z.eqb_neq, H6', K5. split; intros [?|?]; auto.
Qed.
