(** The loop of rfc5444_writer_create_message: which address goes into which
    message, and when it ends. *)
From Coq Require Import Permutation Sorted.
From Verif Require Import Base BitsModel BufLemmas WireSpec GenModel GenSpec.

(** ** What the compression leaves alone *)
Definition dn (objs : list aobj) (p : Z) : option (Z * bool) :=
  match zget objs p with Some o => Some (ao_index o, ao_done o) | None => None end.
Definition frame (objs objs' : list aobj) : Prop := zlen objs' = zlen objs /\ forall p, dn objs' p = dn objs p.

Lemma frame_refl o : frame o o. Proof. now split. Qed.
Lemma frame_trans a b c : frame a b -> frame b c -> frame a c.
Proof. intros [A B] [C D]. split; [congruence|]. intros p. now rewrite D. Qed.
Lemma frame_zset objs objs' p o o' :
  zget objs p = Some o -> zset objs p o' = Some objs' -> ao_index o' = ao_index o -> ao_done o' = ao_done o -> frame objs objs'.
Proof.
  intros G S I D. split; [eapply zset_len; eassumption|]. intros q. unfold dn. rewrite (zget_zset _ _ _ _ _ S).
  destruct (Z.eqb_spec q p) as [->|]; [|reflexivity]. now rewrite G, I, D.
Qed.

Lemma close_index al acs lo ch acs' lo' : close_addrblock al acs lo ch = Some (acs', lo') ->
  ao_index lo' = ao_index lo /\ ao_done lo' = ao_done lo.
Proof.
  unfold close_addrblock. destruct (ch >? al); [now intros [= <- <-]|].
  destruct (zget acs ch); [|discriminate].
  destruct (close_best _ _ _ _) as [[best size]|]; [|discriminate].
  destruct (zget acs best); [|discriminate].
  destruct (close_totals _ _ _); [|discriminate]. intros [= <- <-].
  now destruct (_ || _).
Qed.

Lemma compress_frame al addrs objs acs st pp pos spl objs' acs' st' spl' :
  compress_address al addrs objs acs st pp pos spl = Some (objs', acs', st', spl') -> frame objs objs'.
Proof.
  unfold compress_address. destruct (zget addrs pos) as [a|]; [|discriminate].
  destruct (zget objs pos) as [o|]; [|discriminate].
  destruct pp as [pp|].
  - destruct (zget addrs pp) as [la|]; [|discriminate]. destruct (zget objs pp) as [lo|] eqn:G; [|discriminate].
    destruct (close_addrblock _ _ _ _) as [[acs1 lo']|] eqn:C; [|discriminate].
    destruct (zset objs pp lo') as [objs1|] eqn:S; [|discriminate].
    destruct (compress_all _ _ _ _ _ _ _ _ _ _ _) as [[? ?]|]; [|discriminate]. intros [= <- <- <- <-].
    apply close_index in C as [I D]. eapply frame_zset; eassumption.
  - destruct (compress_all _ _ _ _ _ _ _ _ _ _ _) as [[? ?]|]; [|discriminate]. intros [= <- <- <- <-].
    apply frame_refl.
Qed.

Lemma forward_frame n cur : forall objs first addr objs',
  forward_pointers n cur objs first addr = Some objs' -> frame objs objs'.
Proof.
  induction n as [|n IH]; intros objs first addr objs'; cbn [forward_pointers]; [discriminate|].
  destruct (zget objs addr) as [o|]; [|discriminate]. destruct (ao_start o) as [s|]; [|discriminate].
  destruct (zget objs s) as [os|] eqn:G; [|discriminate].
  destruct (zset objs s _) as [objs1|] eqn:S; [|discriminate].
  assert (F : frame objs objs1) by (eapply frame_zset; [exact G|exact S|reflexivity|reflexivity]).
  destruct (s =? first); [now intros [= <-]|].
  destruct (index_of objs1 (Some first)); [|discriminate].
  destruct (_ >? _); [|discriminate]. destruct (before cur s); [|discriminate]. intros H.
  eapply frame_trans; [exact F|]. eapply IH; exact H.
Qed.

Lemma emit_frame c s objs acs cur single objs' acs' f :
  emit c s objs acs cur single = Some (objs', acs', f) -> frame objs objs' /\ fr_members f = cur.
Proof.
  unfold emit. destruct (gs_lp s) as [lp|]; [|discriminate]. destruct (zget objs lp) as [lo|] eqn:G; [|discriminate].
  destruct (close_addrblock _ _ _ _) as [[acs1 lo']|] eqn:C; [|discriminate].
  destruct (zset objs lp lo') as [objs1|] eqn:S; [|discriminate].
  apply close_index in C as [I D].
  assert (F : frame objs objs1) by (eapply frame_zset; eassumption).
  unfold finalize_addresses. destruct cur as [|p cur'].
  - destruct (zlen [] >? gc_room c); [discriminate|]. intros [= <- <- <-]. now split.
  - destruct (forward_pointers _ _ _ _ _) as [objs2|] eqn:P; [|discriminate].
    destruct (write_addresses _ _ _ _ _ _) as [b|]; [|discriminate].
    destruct (zlen b >? gc_room c); [discriminate|]. intros [= <- <- <-]. split; [|reflexivity].
    apply forward_frame in P. eapply frame_trans; eassumption.
Qed.

(** ** Step relation, in a usable form *)
Definition set_index (o : aobj) (i : Z) : aobj := Aobj i (ao_start o) (ao_multi o) (ao_head o) (ao_end o) (ao_done o).
Definition set_done (o : aobj) : aobj := Aobj (ao_index o) (ao_start o) (ao_multi o) (ao_head o) (ao_end o) true.
Definition prev_of (cur : list Z) : option Z := match cur with [] => None | p :: _ => Some (List.last cur p) end.

Section Cases.
Variable c : gcfg.
Notation is := (zrange 0 (Z.to_nat (gc_al c))).
Inductive case (s : gstate) : gres -> Prop :=
| C_skip a o : zget (gc_addrs c) (gs_pos s) = Some a -> zget (gs_objs s) (gs_pos s) = Some o ->
    ao_done o = true -> ga_mand a = false ->
    case s (GRun (Gst (gs_objs s) (gs_pos s + 1) (gs_first s) (gs_cur s) (gs_acs s) (gs_tst s) (gs_spl s) (gs_fp s) (gs_lp s) (gs_idx s) (gs_nonmand s) (gs_single s) (gs_out s)))
| C_fault : case s GFault
| C_mtu : gs_nonmand s = 0 -> case s (GDone G_MTU_TOO_SMALL (gs_out s))
| C_cut a o objs acs st spl objs1 acs1 objs2 acs2 f :
    zget (gc_addrs c) (gs_pos s) = Some a -> zget (gs_objs s) (gs_pos s) = Some o ->
    (ao_done o = false \/ ga_mand a = true) ->
    zset (gs_objs s) (gs_pos s) (set_index o (gs_idx s)) = Some objs ->
    compress_address (gc_al c) (gc_addrs c) objs (if gs_first s then acs0 else gs_acs s) (if gs_first s then tst0 else gs_tst s)
      (prev_of (gs_cur s)) (gs_pos s) (if gs_first s then 1 else gs_spl s) = Some (objs1, acs1, st, spl) ->
    best_head objs1 acs1 (gs_idx s) is (-1) (gc_max c + 1) = Some (-1) ->
    gs_nonmand s <> 0 ->
    emit c s objs1 acs1 (gs_cur s) false = Some (objs2, acs2, f) -> acs = acs2 ->
    case s (GRun (Gst objs2 (if gs_first s then gs_pos s else gs_fp s) true [] acs st spl (if gs_first s then gs_pos s else gs_fp s) (gs_lp s) (gs_idx s + 1) (gs_nonmand s) false (gs_out s ++ [f])))
| C_add a o o1 objs st spl objs1 acs1 acs2 objs2 best :
    zget (gc_addrs c) (gs_pos s) = Some a -> zget (gs_objs s) (gs_pos s) = Some o ->
    (ao_done o = false \/ ga_mand a = true) ->
    zset (gs_objs s) (gs_pos s) (set_index o (gs_idx s)) = Some objs ->
    compress_address (gc_al c) (gc_addrs c) objs (if gs_first s then acs0 else gs_acs s) (if gs_first s then tst0 else gs_tst s)
      (prev_of (gs_cur s)) (gs_pos s) (if gs_first s then 1 else gs_spl s) = Some (objs1, acs1, st, spl) ->
    best_head objs1 acs1 (gs_idx s) is (-1) (gc_max c + 1) = Some best -> best <> -1 ->
    add_current acs1 is = Some acs2 ->
    zget objs1 (gs_pos s) = Some o1 -> zset objs1 (gs_pos s) (set_done o1) = Some objs2 ->
    case s (GRun (Gst objs2 (gs_pos s + 1) false (gs_cur s ++ [gs_pos s]) acs2 st spl (if gs_first s then gs_pos s else gs_fp s) (Some (gs_pos s)) (gs_idx s + 1)
                   (if negb (ao_done o1) && negb (ga_mand a) then gs_nonmand s + 1 else gs_nonmand s) (gs_single s) (gs_out s)))
| C_none : (zget (gc_addrs c) (gs_pos s) = None \/ zget (gs_objs s) (gs_pos s) = None) -> gs_lp s = None ->
    case s (GDone G_OKAY (gs_out s))
| C_end lp objs1 acs1 f : (zget (gc_addrs c) (gs_pos s) = None \/ zget (gs_objs s) (gs_pos s) = None) -> gs_lp s = Some lp ->
    emit c s (gs_objs s) (gs_acs s) (gs_cur s) (gs_single s) = Some (objs1, acs1, f) ->
    case s (GDone G_OKAY (gs_out s ++ [f])).

Lemma step_case s : case s (g_step c s).
Proof.
  unfold g_step.
  assert (E : (zget (gc_addrs c) (gs_pos s) = None \/ zget (gs_objs s) (gs_pos s) = None) ->
    case s match gs_lp s with
           | None => GDone G_OKAY (gs_out s)
           | Some _ => match emit c s (gs_objs s) (gs_acs s) (gs_cur s) (gs_single s) with
                       | None => GFault | Some (_, _, f) => GDone G_OKAY (gs_out s ++ [f]) end
           end).
  { intros N. destruct (gs_lp s) as [lp|] eqn:L; [|now apply C_none].
    destruct (emit _ _ _ _ _ _) as [[[o a] f]|] eqn:M; [|constructor]. eapply C_end; eassumption. }
  destruct (zget (gc_addrs c) (gs_pos s)) as [a|] eqn:GA; [|apply E; now left].
  destruct (zget (gs_objs s) (gs_pos s)) as [o|] eqn:GO; [|apply E; now right].
  clear E.
  destruct (ao_done o && negb (ga_mand a)) eqn:SK.
  { apply andb_true_iff in SK as [SK1 SK2]. eapply C_skip; [exact GA|exact GO|exact SK1|now apply negb_true_iff]. }
  assert (SK' : ao_done o = false \/ ga_mand a = true).
  { apply andb_false_iff in SK as [SK|SK]; [now left|right; now apply negb_false_iff]. }
  cbv zeta. destruct (zset (gs_objs s) (gs_pos s) _) as [objs|] eqn:ZS; [|constructor].
  change (match gs_cur s with [] => None | p :: _ => Some (List.last (gs_cur s) p) end) with (prev_of (gs_cur s)).
  destruct (compress_address _ _ _ _ _ _ _ _) as [[[[objs1 acs1] st] spl]|] eqn:CA; [|constructor].
  destruct (best_head _ _ _ _ _ _) as [best|] eqn:BH; [|constructor].
  destruct (Z.eqb_spec best (-1)) as [->|NB].
  - destruct (Z.eqb_spec (gs_nonmand s) 0) as [Z0|NZ]; [now constructor|].
    destruct (emit _ _ _ _ _ _) as [[[objs2 acs2] f]|] eqn:EM; [|constructor].
    eapply C_cut; [exact GA|exact GO|exact SK'|exact ZS|exact CA|exact BH|exact NZ|exact EM|reflexivity].
  - destruct (add_current _ _) as [acs2|] eqn:AC; [|constructor].
    destruct (zget objs1 (gs_pos s)) as [o1|] eqn:G1; [|constructor].
    destruct (zset objs1 (gs_pos s) _) as [objs2|] eqn:Z2; [|constructor].
    eapply C_add; [exact GA|exact GO|exact SK'|exact ZS|exact CA|exact BH|exact NB|exact AC|exact G1|exact Z2].
Qed.
End Cases.

(** ** Which address goes where *)
Definition done_at (objs : list aobj) (p : Z) : bool := match zget objs p with Some o => ao_done o | None => false end.
Definition mand_at (c : gcfg) (p : Z) : bool := match zget (gc_addrs c) p with Some a => ga_mand a | None => false end.
Lemma frame_done o o' p : frame o o' -> done_at o' p = done_at o p.
Proof. intros [_ F]. specialize (F p). unfold dn, done_at in *. destruct (zget o' p), (zget o p); congruence. Qed.

Record inv (c : gcfg) (s : gstate) : Prop := {
  i_len : zlen (gs_objs s) = zlen (gc_addrs c);
  i_pos : 0 <= gs_pos s <= zlen (gc_addrs c);
  i_sorted : StronglySorted Z.lt (gs_cur s);
  i_below : Forall (fun p => 0 <= p < gs_pos s) (gs_cur s);
  i_count : forall p, 0 <= p < zlen (gc_addrs c) -> mand_at c p = false ->
     count_occ Z.eq_dec (positions (gs_out s) ++ gs_cur s) p = if done_at (gs_objs s) p then 1%nat else 0%nat;
  i_nm : 0 <= gs_nonmand s;
  i_nm0 : gs_nonmand s = 0 -> gs_out s = [];
  i_done : forall p, 0 <= p < gs_pos s -> done_at (gs_objs s) p = true;
  i_fp : gs_first s = false -> 0 <= gs_fp s <= gs_pos s;
  i_cur : gs_first s = true -> gs_cur s = [];
  i_out : ordered c (gs_out s);
  i_lp : gs_lp s = None -> forall p, done_at (gs_objs s) p = false;
  i_ahead : gs_first s = true -> exists q, gs_pos s <= q < zlen (gc_addrs c) /\ (mand_at c q = true \/ done_at (gs_objs s) q = false);
  i_m1 : gs_first s = true -> forall p, 0 <= p < gs_pos s -> mand_at c p = false;
  i_m2 : gs_first s = false -> (forall p, 0 <= p < gs_fp s -> mand_at c p = false) /\
                               (forall p, 0 <= p < gs_pos s -> mand_at c p = true -> In p (gs_cur s))
}.

Lemma zget_in {A} (l : list A) i : 0 <= i < zlen l <-> exists x, zget l i = Some x.
Proof. split; [apply zget_Some|]. intros [x H]. now apply zget_bound in H. Qed.

Lemma inv_init c : gc_addrs c <> [] -> inv c (g_init c).
Proof.
  intros NE. pose proof (zlen_nonneg (gc_addrs c)) as L.
  assert (DA : forall p, done_at (gs_objs (g_init c)) p = false).
  { intros p. unfold done_at, g_init. cbn [gs_objs]. rewrite zget_repeat. now destruct (_ && _). }
  assert (L0 : 0 < zlen (gc_addrs c)).
  { destruct (gc_addrs c); [congruence|]. rewrite zlen_cons. pose proof (zlen_nonneg l). lia. }
  constructor; cbn [g_init gs_objs gs_pos gs_cur gs_out gs_nonmand gs_first gs_fp gs_lp]; try lia.
  - now rewrite zlen_repeat.
  - constructor.
  - constructor.
  - intros p R M. cbn [positions map concat app count_occ]. change (repeat aobj0 (length (gc_addrs c))) with (gs_objs (g_init c)). now rewrite DA.
  - reflexivity.
  - reflexivity.
  - intros f [].
  - intros _ p. change (repeat aobj0 (length (gc_addrs c))) with (gs_objs (g_init c)). apply DA.
  - intros _. exists 0. split; [lia|]. right. change (repeat aobj0 (length (gc_addrs c))) with (gs_objs (g_init c)). apply DA.
Qed.

Lemma done_zset objs objs' p o : zset objs p o = Some objs' -> forall q, done_at objs' q = if q =? p then ao_done o else done_at objs q.
Proof. intros S q. unfold done_at. rewrite (zget_zset _ _ _ _ _ S). now destruct (q =? p). Qed.

Lemma positions_app a f : positions (a ++ [f]) = positions a ++ fr_members f.
Proof. unfold positions. rewrite map_app, concat_app. cbn [map concat]. now rewrite app_nil_r. Qed.
Lemma count_app (a b : list Z) p : count_occ Z.eq_dec (a ++ b) p = (count_occ Z.eq_dec a p + count_occ Z.eq_dec b p)%nat.
Proof. induction a as [|x a IH]; cbn [app count_occ]; [reflexivity|]. destruct (Z.eq_dec x p); lia. Qed.
Lemma sorted_snoc l p : StronglySorted Z.lt l -> Forall (fun x => 0 <= x < p) l -> StronglySorted Z.lt (l ++ [p]).
Proof.
  induction l as [|x l IH]; intros S F; cbn [app].
  - constructor; [constructor|constructor].
  - inversion S; inversion F; subst. constructor; [now apply IH|]. apply Forall_app. split; [assumption|].
    constructor; [lia|constructor].
Qed.

Definition done_ok (c : gcfg) (r : Z) (out : list frag) : Prop :=
  (r = G_MTU_TOO_SMALL /\ out = []) \/ (r = G_OKAY /\ others_once c out /\ ordered c out).

Lemma mand_at_Some c p a : zget (gc_addrs c) p = Some a -> mand_at c p = ga_mand a.
Proof. unfold mand_at. now intros ->. Qed.

Lemma count_below p l : Forall (fun x => 0 <= x < p) l -> count_occ Z.eq_dec l p = 0%nat.
Proof. intros F. apply count_occ_not_In. intros I. rewrite Forall_forall in F. specialize (F _ I). lia. Qed.

Lemma step_inv c s : gc_addrs c <> [] -> inv c s ->
  match g_step c s with GRun s' => inv c s' | GDone r out => done_ok c r out | GFault => True end.
Proof.
  intros NE I. destruct (step_case c s) as
    [a o GA GO D M | | NM | a o objs acs st spl objs1 acs1 objs2 acs2 f GA GO SK ZS CA BH NM EM ->
    | a o o1 objs st spl objs1 acs1 acs2 objs2 best GA GO SK ZS CA BH NB AC G1 Z2 | E L | lp objs1 acs1 f E L EM]; try exact Logic.I.
  - (* skip *)
    pose proof (zget_bound _ _ _ GA) as BA. pose proof (i_len c s I). pose proof (i_pos c s I).
    assert (DP : done_at (gs_objs s) (gs_pos s) = true) by (unfold done_at; now rewrite GO).
    pose proof (mand_at_Some _ _ _ GA) as MP. rewrite M in MP.
    destruct I as [I1 I2 I3 I4 I5 I6 I7 I8 I9 I10 I11 I12 I13 I14 I15].
    constructor; cbn [gs_objs gs_pos gs_cur gs_out gs_nonmand gs_first gs_fp gs_lp]; try assumption; try lia.
    + eapply Forall_impl; [|exact I4]. cbn. intros; lia.
    + intros p R. destruct (Z.eq_dec p (gs_pos s)) as [->|]; [exact DP|]. apply I8. lia.
    + intros F. destruct (I13 F) as (q & Q1 & Q2). exists q. split; [|exact Q2].
      destruct (Z.eq_dec q (gs_pos s)) as [->|]; [|lia]. exfalso. rewrite MP, DP in Q2. destruct Q2; discriminate.
    + intros F p R. destruct (Z.eq_dec p (gs_pos s)) as [->|]; [exact MP|]. apply I14; [exact F|lia].
    + intros F. destruct (I15 F) as [J1 J2]. split; [exact J1|]. intros p R MM.
      destruct (Z.eq_dec p (gs_pos s)) as [->|]; [congruence|]. apply J2; [lia|exact MM].
  - (* error *)
    left. split; [reflexivity|]. now apply (i_nm0 c s I).
  - (* a message is cut *)
    pose proof (zget_bound _ _ _ GA) as BA.
    pose proof (compress_frame _ _ _ _ _ _ _ _ _ _ _ _ CA) as F1.
    pose proof (emit_frame _ _ _ _ _ _ _ _ _ EM) as [F2 FM].
    assert (DD : forall p, done_at objs2 p = done_at (gs_objs s) p).
    { intros p. rewrite (frame_done _ _ p F2), (frame_done _ _ p F1), (done_zset _ _ _ _ ZS p).
      destruct (Z.eqb_spec p (gs_pos s)) as [->|]; [|reflexivity]. unfold done_at. now rewrite GO. }
    assert (LL : zlen objs2 = zlen (gc_addrs c)).
    { destruct F1 as [F1 _], F2 as [F2 _]. rewrite F2, F1, (zset_len _ _ _ _ ZS). apply (i_len c s I). }
    pose proof (mand_at_Some _ _ _ GA) as MP.
    assert (DP : done_at (gs_objs s) (gs_pos s) = ao_done o) by (unfold done_at; now rewrite GO).
    destruct I as [I1 I2 I3 I4 I5 I6 I7 I8 I9 I10 I11 I12 I13 I14 I15].
    set (fp := if gs_first s then gs_pos s else gs_fp s).
    assert (FP : 0 <= fp <= gs_pos s).
    { unfold fp. destruct (gs_first s) eqn:FS; [lia|]. now apply I9. }
    constructor; cbn [gs_objs gs_pos gs_cur gs_out gs_nonmand gs_first gs_fp gs_lp]; try assumption; try lia.
    + constructor.
    + constructor.
    + intros p R M. rewrite app_nil_r, positions_app, FM, DD. now apply I5.
    + intros p R. rewrite DD. apply I8. lia.
    + reflexivity.
    + intros g G. apply in_app_or in G as [G|[<-|[]]]; [now apply I11|]. rewrite FM. split; [exact I3|].
      intros p G. rewrite Forall_forall in I4. specialize (I4 _ G). apply zget_Some. lia.
    + intros LN p. rewrite DD. now apply I12.
    + intros _. exists (gs_pos s). split; [lia|]. rewrite DD, MP, DP. destruct SK; auto.
    + intros _ p R. unfold fp in R. destruct (gs_first s) eqn:FS; [now apply I14|]. now apply I15.
  - (* an address is added *)
    pose proof (zget_bound _ _ _ GA) as BA.
    pose proof (compress_frame _ _ _ _ _ _ _ _ _ _ _ _ CA) as F1.
    assert (DD : forall p, done_at objs2 p = if p =? gs_pos s then true else done_at (gs_objs s) p).
    { intros p. rewrite (done_zset _ _ _ _ Z2 p). destruct (Z.eqb_spec p (gs_pos s)) as [->|NP]; [reflexivity|].
      rewrite (frame_done _ _ p F1), (done_zset _ _ _ _ ZS p). destruct (Z.eqb_spec p (gs_pos s)); [lia|reflexivity]. }
    assert (LL : zlen objs2 = zlen (gc_addrs c)).
    { destruct F1 as [F1 _]. rewrite (zset_len _ _ _ _ Z2), F1, (zset_len _ _ _ _ ZS). apply (i_len c s I). }
    assert (D1 : ao_done o1 = ao_done o).
    { destruct F1 as [_ F1]. specialize (F1 (gs_pos s)). unfold dn in F1. rewrite G1, (zget_zset _ _ _ _ _ ZS), Z.eqb_refl in F1.
      now injection F1. }
    pose proof (mand_at_Some _ _ _ GA) as MP.
    assert (DP : done_at (gs_objs s) (gs_pos s) = ao_done o) by (unfold done_at; now rewrite GO).
    destruct I as [I1 I2 I3 I4 I5 I6 I7 I8 I9 I10 I11 I12 I13 I14 I15].
    constructor; cbn [gs_objs gs_pos gs_cur gs_out gs_nonmand gs_first gs_fp gs_lp]; try assumption; try lia.
    + now apply sorted_snoc.
    + apply Forall_app. split; [eapply Forall_impl; [|exact I4]; cbn; intros; lia|]. constructor; [lia|constructor].
    + intros p R M. rewrite app_assoc, count_app, (I5 p R M), DD. cbn [count_occ].
      destruct (Z.eq_dec (gs_pos s) p) as [<-|NP].
      * rewrite Z.eqb_refl. rewrite DP. destruct SK as [-> | SK]; [reflexivity|congruence].
      * destruct (Z.eqb_spec p (gs_pos s)); [lia|]. lia.
    + destruct (_ && _); lia.
    + destruct (_ && _); [lia|exact I7].
    + intros p R. rewrite DD. destruct (Z.eqb_spec p (gs_pos s)); [reflexivity|]. apply I8. lia.
    + discriminate.
    + intros _. destruct (gs_first s) eqn:FS.
      * split; [now apply I14|]. intros p R MM. apply in_or_app. right.
        destruct (Z.eq_dec p (gs_pos s)) as [->|]; [now left|]. rewrite (I14 eq_refl p) in MM; [discriminate|lia].
      * destruct (I15 eq_refl) as [J1 J2]. split; [exact J1|]. intros p R MM. apply in_or_app.
        destruct (Z.eq_dec p (gs_pos s)) as [->|]; [right; now left|]. left. apply J2; [lia|exact MM].
  - (* end without an address: impossible *)
    exfalso. destruct I as [I1 I2 I3 I4 I5 I6 I7 I8 I9 I10 I11 I12 I13 I14 I15].
    assert (PE : gs_pos s = zlen (gc_addrs c)).
    { destruct (Z.eq_dec (gs_pos s) (zlen (gc_addrs c))) as [|NP]; [assumption|exfalso].
      destruct E as [E|E]; apply zget_None in E; lia. }
    assert (0 < zlen (gc_addrs c)).
    { destruct (gc_addrs c) as [|x l] eqn:GC; [congruence|]. rewrite zlen_cons. pose proof (zlen_nonneg l). lia. }
    pose proof (I8 0 ltac:(lia)) as D0. rewrite (I12 L 0) in D0. discriminate.
  - (* end *)
    right. pose proof (emit_frame _ _ _ _ _ _ _ _ _ EM) as [F2 FM].
    destruct I as [I1 I2 I3 I4 I5 I6 I7 I8 I9 I10 I11 I12 I13 I14 I15].
    assert (PE : gs_pos s = zlen (gc_addrs c)).
    { destruct (Z.eq_dec (gs_pos s) (zlen (gc_addrs c))) as [|NP]; [assumption|exfalso].
      destruct E as [E|E]; apply zget_None in E; lia. }
    split; [reflexivity|]. split.
    + intros p a GA MA. pose proof (zget_bound _ _ _ GA) as BA. rewrite positions_app, FM.
      rewrite (I5 p BA); [|now rewrite (mand_at_Some _ _ _ GA)]. rewrite I8; [reflexivity|lia].
    + intros g G. apply in_app_or in G as [G|[<-|[]]]; [now apply I11|]. rewrite FM. split; [exact I3|].
      intros p G. rewrite Forall_forall in I4. specialize (I4 _ G). apply zget_Some. lia.
Qed.

Lemma run_done c n : gc_addrs c <> [] -> forall s r out, inv c s -> g_run n c s = GDone r out -> done_ok c r out.
Proof.
  intros NE. induction n as [|n IH]; intros s r out I; cbn [g_run]; [discriminate|].
  pose proof (step_inv c s NE I) as S. destruct (g_step c s) as [s'|r' out'|]; [|now intros [= <- <-]|discriminate].
  now apply IH.
Qed.

Lemma generate_done c n r out : generate n c = GDone r out -> done_ok c r out.
Proof.
  unfold generate. destruct (gc_addrs c) as [|a l] eqn:E.
  - intros [= <- <-]. right. split; [reflexivity|]. split.
    + intros p a G. rewrite E in G. now apply zget_bound in G as [G1 G2%Z.lt_nge].
    + intros f [<-|[]]. cbn [fr_members]. split; [constructor|intros p []].
  - intros R. eapply run_done; [|apply inv_init|exact R]; congruence.
Qed.
