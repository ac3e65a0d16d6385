(** Properties of configured link data: C163. *)
From Verif Require Import Base L2DataModel LinkcfgModel LinkcfgSpec.

Lemma oeqb_eq a b : oeqb a b = true <-> a = b.
Proof.
  destruct a as [x|], b as [y|]; cbn; split; intro H; try discriminate; try reflexivity.
  - apply Z.eqb_eq in H. now subst.
  - injection H as ->. apply Z.eqb_refl.
Qed.
Lemma keqb_eq a b : keqb a b = true <-> a = b.
Proof.
  destruct a as [[n m] i], b as [[n' m'] i']. cbn. rewrite !Bool.andb_true_iff, !Z.eqb_eq, oeqb_eq.
  split; [intros [[-> ->] ->]; reflexivity | intro H; injection H as -> -> ->; auto].
Qed.

(** ** The values written, in order *)
Definition line_writes (l : line) : list (option Z * Z) :=
  match l_val l with
  | None => []
  | Some v => match l_macs l with [] => [(None, v)] | ms => map (fun m => (m, v)) ms end
  end.
Definition wr (fp : Z -> Z) (s i : Z) (b : db) (w : option Z * Z) : db := set fp s i (fst w) (snd w) b.
Lemma put_macs_writes fp s i v ms : ~ In None ms -> forall b,
  put_macs fp s i v ms b = fold_left (wr fp s i) (map (fun m => (m, v)) ms) b.
Proof.
  induction ms as [|[m|] r IH]; intros N b; cbn.
  - reflexivity.
  - apply IH. intro H. apply N. now right.
  - exfalso. apply N. now left.
Qed.
Lemma put_line_writes fp s i l b : ~ In None (l_macs l) ->
  put_line fp s i b l = fold_left (wr fp s i) (line_writes l) b.
Proof.
  intro N. unfold put_line, line_writes. destruct (l_val l) as [v|]; [|reflexivity].
  destruct (l_macs l) as [|m r] eqn:E; [reflexivity|]. apply put_macs_writes. exact N.
Qed.
Lemma parse_writes fp s i ls : (forall l, In l ls -> ~ In None (l_macs l)) -> forall b,
  parse_strarray fp s ls i b = fold_left (wr fp s i) (flat_map line_writes ls) b.
Proof.
  unfold parse_strarray. induction ls as [|l r IH]; intros N b; [reflexivity|].
  cbn [fold_left flat_map]. rewrite fold_left_app, put_line_writes by (apply N; now left).
  apply IH. intros x Hx. apply N. now right.
Qed.

(** ** One value *)
Fixpoint lastw (m : option Z) (ws : list (option Z * Z)) : option Z :=
  match ws with
  | [] => None
  | (m', v) :: r => match lastw m r with Some w => Some w | None => if oeqb m m' then Some v else None end
  end.
Lemma lastw_app m a b : lastw m (a ++ b) = match lastw m b with Some v => Some v | None => lastw m a end.
Proof.
  induction a as [|[m' v] r IH]; cbn; [now destruct (lastw m b)|].
  rewrite IH. now destruct (lastw m b).
Qed.
Definition takes (fp : Z -> Z) (d : data) : bool :=
  match d_meta d, d_org d with Some _, Some own => (own =? CUR) || (prio fp own <? prio fp CUR) | _, _ => true end.
Lemma put_eq fp i d v : put fp i d v = if takes fp d then mkData v (Some (md i)) (Some CUR) else d.
Proof.
  unfold put, data_set, takes. destruct (d_meta d); [|reflexivity]. destruct (d_org d) as [o|]; [|reflexivity].
  now destruct ((o =? CUR) || (prio fp o <? prio fp CUR)).
Qed.
Definition written (fp : Z -> Z) (i : Z) (d : data) (w : option Z) : data :=
  match w with Some v => if takes fp d then mkData v (Some (md i)) (Some CUR) else d | None => d end.
Lemma writes_cell fp s i ws : forall b n m j,
  fold_left (wr fp s i) ws b (n, m, j) =
  if (n =? s) && (j =? i) then written fp i (b (n, m, j)) (lastw m ws) else b (n, m, j).
Proof.
  induction ws as [|[m' v] r IH]; intros b n m j.
  - cbn. now destruct ((n =? s) && (j =? i)).
  - cbn [fold_left lastw]. rewrite IH. unfold wr at 1 2, set. cbn [fst snd keqb].
    destruct (n =? s) eqn:En; cbn [andb]; [|reflexivity].
    destruct (j =? i) eqn:Ej.
    + rewrite Bool.andb_true_r. destruct (oeqb m m') eqn:Em.
      * rewrite put_eq. destruct (lastw m r) as [w|]; cbn [written].
        -- destruct (takes fp (b (n, m, j))) eqn:T; [reflexivity|]. now rewrite T.
        -- reflexivity.
      * now destruct (lastw m r).
    + now rewrite Bool.andb_false_r.
Qed.
Lemma all_cell fp s c is : NoDup is -> section_ok c -> forall b n m j,
  fold_left (fun b i => parse_strarray fp s (c i) i b) is b (n, m, j) =
  if (n =? s) && existsb (Z.eqb j) is then written fp j (b (n, m, j)) (lastw m (flat_map line_writes (c j)))
  else b (n, m, j).
Proof.
  intros ND OK. induction ND as [|i r NI _ IH]; intros b n m j; cbn [fold_left existsb].
  - now rewrite Bool.andb_false_r.
  - rewrite IH. rewrite parse_writes by (intros l Hl; apply (OK i l Hl)). rewrite writes_cell.
    destruct (n =? s); cbn [andb]; [|reflexivity].
    destruct (j =? i) eqn:E; cbn [orb].
    + apply Z.eqb_eq in E. subst j.
      destruct (existsb (Z.eqb i) r) eqn:X; [|reflexivity].
      exfalso. apply NI. apply existsb_exists in X. destruct X as (y & Hy & Q). apply Z.eqb_eq in Q. now subst.
    + reflexivity.
Qed.

(** ** The last line *)
Lemma lastw_map m v ms : lastw m (map (fun x => (x, v)) ms) = if existsb (oeqb m) ms then Some v else None.
Proof.
  induction ms as [|x r IH]; [reflexivity|]. cbn. rewrite IH.
  destruct (existsb (oeqb m) r); [now rewrite Bool.orb_true_r|]. now rewrite Bool.orb_false_r.
Qed.
Lemma lastw_line l m v : ~ In None (l_macs l) -> lastw m (line_writes l) = Some v <-> gives l m v.
Proof.
  intro N. unfold line_writes, gives. destruct (l_val l) as [w|].
  2:{ cbn. split; [discriminate|]. intros [H _]. discriminate. }
  destruct (l_macs l) as [|a r] eqn:E.
  - cbn. destruct m as [x|]; cbn; split.
    + discriminate.
    + intros [_ []].
    + intro H. split; [exact H|reflexivity].
    + intros [H _]. exact H.
  - rewrite <- E in *. rewrite lastw_map. destruct (existsb (oeqb m) (l_macs l)) eqn:X.
    + apply existsb_exists in X. destruct X as (y & Hy & Q). apply oeqb_eq in Q. subst y.
      split; [|intros [H _]; exact H]. intro H. split; [exact H|].
      destruct m; [exact Hy|]. now destruct N.
    + split; [discriminate|]. intros [_ H]. exfalso. destruct m as [x|].
      * assert (T : existsb (oeqb (Some x)) (l_macs l) = true)
          by (apply existsb_exists; exists (Some x); split; [exact H | now apply oeqb_eq]). congruence.
      * rewrite H in E. discriminate.
Qed.
Lemma lastw_lines m v ls : (forall l, In l ls -> ~ In None (l_macs l)) ->
  lastw m (flat_map line_writes ls) = Some v <->
  exists p l r, ls = p ++ l :: r /\ gives l m v /\ forall x w, In x r -> ~ gives x m w.
Proof.
  induction ls as [|l0 ls IH]; intro N.
  - cbn. split; [discriminate|]. intros (p & l & r & H & _). destruct p; discriminate.
  - cbn [flat_map]. rewrite lastw_app.
    assert (N0 := N l0 (or_introl eq_refl)).
    assert (N' : forall l, In l ls -> ~ In None (l_macs l)) by (intros l Hl; apply N; now right).
    destruct (lastw m (flat_map line_writes ls)) as [w|] eqn:L.
    + split.
      * intro H. injection H as ->. destruct (proj1 (IH N') eq_refl) as (p & l & r & -> & G & R).
        exists (l0 :: p), l, r. auto.
      * intros (p & l & r & E & G & R). destruct p as [|a p]; injection E as E1 E2.
        -- exfalso. subst. assert (X : exists p l r', r = p ++ l :: r' /\ gives l m w).
           { clear - L N'. revert L. induction r as [|y r IH]; cbn [flat_map]; [discriminate|].
             rewrite lastw_app. destruct (lastw m (flat_map line_writes r)) as [w'|].
             - intro H. destruct (IH (fun l Hl => N' l (or_intror Hl)) H) as (p & l & q & -> & G).
               exists (y :: p), l, q. auto.
             - intro H. exists [], y, r. split; [reflexivity|]. apply lastw_line; [|exact H]. apply N'. now left. }
           destruct X as (p & x & q & -> & G'). apply (R x w); [|exact G']. apply in_or_app. right. now left.
        -- subst. apply (IH N'). exists p, l, r. auto.
    + split.
      * intro H. exists [], l0, ls. split; [reflexivity|]. split; [now apply lastw_line|].
        intros x w Hx G. apply in_split in Hx. destruct Hx as (p & q & ->).
        clear - L G N'. induction p as [|y p IH].
        -- cbn [flat_map app] in L. rewrite lastw_app in L.
           destruct (lastw m (flat_map line_writes q)); [discriminate|].
           apply lastw_line in G; [congruence|]. apply N'. now left.
        -- cbn [flat_map app] in L. rewrite lastw_app in L.
           destruct (lastw m (flat_map line_writes (p ++ x :: q))) eqn:L'; [discriminate|].
           apply IH; [reflexivity|]. intros l Hl. apply N'. now right.
      * intros (p & l & r & E & G & R). destruct p as [|a p]; injection E as E1 E2.
        -- subst. now apply lastw_line.
        -- exfalso. subst. assert (X : @None Z = Some v) by (apply (IH N'); exists p, l, r; auto). discriminate.
Qed.
Lemma nodup_indices : NoDup indices.
Proof. unfold indices, RX_SIGNAL, TX_BITRATE, RX_BITRATE, TX_MAX_BITRATE, RX_MAX_BITRATE. repeat constructor; cbn; lia. Qed.

(** ** One value after a change *)
Definition want (c : section) (m : option Z) (i : Z) : option Z :=
  if existsb (Z.eqb i) indices then lastw m (flat_map line_writes (c i)) else None.
Lemma want_iff c m i v : section_ok c -> want c m i = Some v <-> configured c m i v.
Proof.
  intro OK. unfold want, configured. rewrite <- lastw_lines by (intros l Hl; apply (OK i l Hl)).
  destruct (existsb (Z.eqb i) indices) eqn:X.
  - apply existsb_exists in X. destruct X as (y & Hy & Q). apply Z.eqb_eq in Q. subst y. unfold indices in Hy. tauto.
  - split; [discriminate|]. intros [H _]. exfalso.
    assert (T : existsb (Z.eqb i) indices = true) by (apply existsb_exists; exists i; split; [exact H | apply Z.eqb_refl]).
    congruence.
Qed.
Definition finish (m : option Z) (i : Z) (d : data) : data :=
  let d := if has_org d OLD then reset d else d in
  if has_org d CUR && match m with Some _ => true | None => i <? NET_COUNT end
  then mkData (d_val d) (d_meta d) (Some OLD) else d.
Lemma cell fp phy s c b m i : phy s = s -> section_ok c ->
  config_changed fp phy s (Some c) b (s, m, i) = finish m i (written fp i (b (s, m, i)) (want c m i)).
Proof.
  intros P OK. unfold config_changed, relabel, net_cleanup, finish. rewrite P, Z.eqb_refl. cbn [andb].
  rewrite (all_cell fp s c indices nodup_indices OK). rewrite Z.eqb_refl. cbn [andb]. unfold want.
  destruct (existsb (Z.eqb i) indices); reflexivity.
Qed.
Lemma cell_none fp phy s b m i : phy s = s ->
  config_changed fp phy s None b (s, m, i) = finish m i (b (s, m, i)).
Proof.
  intros P. unfold config_changed, relabel, net_cleanup, finish. rewrite P, Z.eqb_refl. reflexivity.
Qed.
Lemma free_takes fp d : free fp d -> takes fp d = true.
Proof.
  intros (A & B & F). unfold takes, prio. destruct (d_meta d) as [x|] eqn:M; [|reflexivity].
  destruct (d_org d) as [o|] eqn:O; [|reflexivity]. cbn [Z.eqb].
  assert (H := F o eq_refl ltac:(discriminate)). unfold CUR, OLD, CONFIGURED in *.
  destruct (o =? 1) eqn:E1; [reflexivity|]. destruct (o =? 2) eqn:E2.
  - apply Z.eqb_eq in E2. now subst.
  - cbn [orb]. rewrite Z.eqb_refl. lia.
Qed.
Lemma has_org_iff d o : has_org d o = true <-> d_org d = Some o.
Proof.
  unfold has_org. destruct (d_org d) as [x|]; [|split; discriminate]. rewrite Z.eqb_eq.
  split; [now intros -> | intro H; now injection H].
Qed.
Lemma finish_foreign m i d : no_ours d -> finish m i d = d.
Proof.
  intros [A B]. unfold finish. destruct (has_org d OLD) eqn:E; [apply has_org_iff in E; contradiction|].
  destruct (has_org d CUR) eqn:E'; [apply has_org_iff in E'; contradiction|]. reflexivity.
Qed.
Lemma in_small i : In i [5; 4; 7; 6; 1] -> i <? NET_COUNT = true.
Proof. unfold NET_COUNT. cbn. lia. Qed.
Lemma finish_new m i v : In i [5; 4; 7; 6; 1] ->
  finish m i (mkData v (Some (md i)) (Some CUR)) = mkData v (Some (md i)) (Some OLD).
Proof. intro H. unfold finish. cbn. rewrite (in_small i H). now destruct m. Qed.

(** ** C163: configured link data *)

(** a section applied where the plugin has no values yet: exactly the configured
    values, of the last line each, unless somebody with at least the same priority has
    set the value *)
Theorem C163_first_partial : forall fp phy s c b m i v,
  phy s = s -> section_ok c -> free fp (b (s, m, i)) ->
  ours (config_changed fp phy s (Some c) b (s, m, i)) v <-> configured c m i v.
Proof.
  intros fp phy s c b m i v P OK F. rewrite cell by assumption.
  destruct (want c m i) as [w|] eqn:W; cbn [written].
  - rewrite (free_takes fp _ F). assert (K := proj1 (want_iff c m i w OK) W).
    rewrite finish_new by apply K. unfold ours. cbn. rewrite <- (want_iff c m i v OK), W. split.
    + intros (_ & _ & ->). reflexivity.
    + intro H. injection H as ->. repeat split; [now right | discriminate].
  - rewrite finish_foreign by (destruct F as (A & B & _); now split).
    rewrite <- (want_iff c m i v OK), W. split; [|discriminate].
    intros ([A|A] & _); destruct F as (N1 & N2 & _); contradiction.
Qed.
(** values of others stay, if they are not configured or have at least the same priority *)
Theorem C163_others_partial : forall fp phy s c b m i,
  phy s = s -> section_ok c -> no_ours (b (s, m, i)) ->
  (forall v, ~ configured c m i v) \/ (exists o, d_org (b (s, m, i)) = Some o /\ d_meta (b (s, m, i)) <> None /\ 30 <= fp o) ->
  config_changed fp phy s (Some c) b (s, m, i) = b (s, m, i).
Proof.
  intros fp phy s c b m i P OK N H. rewrite cell by assumption.
  assert (E : written fp i (b (s, m, i)) (want c m i) = b (s, m, i)).
  { destruct (want c m i) as [w|] eqn:W; [|reflexivity]. cbn [written].
    destruct H as [H|(o & O & M & Q)].
    - exfalso. apply (H w). now apply want_iff.
    - unfold takes, prio. rewrite O. destruct (d_meta (b (s, m, i))); [|now destruct M].
      destruct N as [N1 N2]. rewrite O in N1, N2. unfold CUR, OLD, CONFIGURED.
      destruct (o =? 1) eqn:E1; [apply Z.eqb_eq in E1; subst; now destruct N1|].
      destruct (o =? 2) eqn:E2; [apply Z.eqb_eq in E2; subst; now destruct N2|].
      change (1 =? 1) with true. cbn [orb]. cbv iota. destruct (fp o <? 30) eqn:L; [lia|reflexivity]. }
  rewrite E. now apply finish_foreign.
Qed.
(** no other network is touched *)
Theorem C163_other_networks_partial : forall fp phy s p b n m i,
  n <> s -> phy s = s -> (forall c, p = Some c -> section_ok c) ->
  config_changed fp phy s p b (n, m, i) = b (n, m, i).
Proof.
  intros fp phy s p b n m i N P OK. unfold config_changed, relabel, net_cleanup. rewrite P.
  assert (E : (n =? s) = false) by (now apply Z.eqb_neq). rewrite E. cbn [andb].
  destruct p as [c|]; [|reflexivity].
  rewrite (all_cell fp s c indices nodup_indices (OK c eq_refl)). now rewrite E.
Qed.
(** the values of the configuration before are removed, if the section is changed or
    removed *)
Lemma old_cell fp phy s p b m i : phy s = s -> (forall c, p = Some c -> section_ok c) ->
  d_org (b (s, m, i)) = Some OLD -> d_meta (b (s, m, i)) <> None ->
  config_changed fp phy s p b (s, m, i) = reset (b (s, m, i)).
Proof.
  intros P OK O M.
  assert (F : finish m i (b (s, m, i)) = reset (b (s, m, i))).
  { unfold finish. rewrite (proj2 (has_org_iff _ OLD) O). reflexivity. }
  destruct p as [c|].
  - rewrite cell by auto. unfold written, takes. rewrite O. destruct (d_meta (b (s, m, i))); [|now destruct M].
    cbn. destruct (want c m i); exact F.
  - rewrite cell_none by assumption. exact F.
Qed.
Theorem C163_removed_partial : forall fp phy s c p m i v,
  phy s = s -> section_ok c -> (forall c', p = Some c' -> section_ok c') ->
  (forall c' w, p = Some c' -> ~ configured c' m i w) ->
  ~ ours (st_db (run fp phy [Change s (Some c); Change s p]) (s, m, i)) v.
Proof.
  intros fp phy s c p m i v P OK OKp NC.
  change (~ ours (config_changed fp phy s p (config_changed fp phy s (Some c) empty) (s, m, i)) v).
  set (b1 := config_changed fp phy s (Some c) empty).
  assert (E : b1 (s, m, i) = finish m i (written fp i (empty (s, m, i)) (want c m i))) by (apply cell; assumption).
  destruct (want c m i) as [w|] eqn:W.
  - assert (K := proj1 (want_iff c m i w OK) W). cbn [written] in E. change (takes fp (empty (s, m, i))) with true in E.
    cbv iota in E. rewrite finish_new in E by apply K.
    rewrite old_cell; [|assumption|assumption|now rewrite E|rewrite E; discriminate].
    rewrite E. intros ([A|A] & _); discriminate.
  - cbn [written] in E. rewrite finish_foreign in E by (split; discriminate).
    destruct p as [c'|].
    + rewrite C163_first_partial; auto. rewrite E. repeat split; discriminate.
    + rewrite cell_none by assumption. rewrite E, finish_foreign by (split; discriminate).
      intros ([A|A] & _); discriminate.
Qed.

(** applying a section again removes what is configured, and the next time it comes
    back: after n events of the timer the value is there exactly if n is even *)
Lemma alternate fp phy s c m i v n : phy s = s -> section_ok c -> configured c m i v ->
  let st := run fp phy (Change s (Some c) :: repeat Timer n) in
  st_last st = Some (s, Some c) /\
  st_db st (s, m, i) = if Nat.even n then mkData v (Some (md i)) (Some OLD) else mkData v None None.
Proof.
  intros P OK K. assert (W := proj2 (want_iff c m i v OK) K). induction n as [|n IH].
  - split; [reflexivity|]. change (config_changed fp phy s (Some c) empty (s, m, i) = mkData v (Some (md i)) (Some OLD)).
    rewrite cell by assumption. rewrite W. cbn [written].
    change (takes fp (empty (s, m, i))) with true. cbv iota. apply finish_new. apply K.
  - cbv zeta in *. rewrite Nat.even_succ, <- Nat.negb_even.
    replace (Change s (Some c) :: repeat Timer (S n)) with ((Change s (Some c) :: repeat Timer n) ++ [Timer])
      by (cbn [app]; rewrite <- repeat_cons; reflexivity).
    unfold run in *. rewrite fold_left_app.
    set (st := fold_left (step fp phy) (Change s (Some c) :: repeat Timer n) init) in *.
    change (fold_left (step fp phy) [Timer] st) with (step fp phy st Timer).
    destruct IH as [L D]. unfold step. rewrite L. cbn [st_last st_db]. split; [reflexivity|].
    destruct (Nat.even n); cbn [negb].
    + rewrite old_cell; [now rewrite D|assumption| |now rewrite D|rewrite D; discriminate].
      intros c' H. injection H as <-. exact OK.
    + rewrite cell by assumption. rewrite W, D. cbn [written].
      change (takes fp (mkData v None None)) with true. cbv iota. apply finish_new. apply K.
Qed.
Theorem C163_timer_alternates_partial : forall fp phy s c m i v n,
  phy s = s -> section_ok c -> configured c m i v ->
  (exists w, ours (st_db (run fp phy (Change s (Some c) :: repeat Timer n)) (s, m, i)) w) <-> Nat.even n = true.
Proof.
  intros fp phy s c m i v n P OK K. destruct (alternate fp phy s c m i v n P OK K) as [_ ->].
  destruct (Nat.even n); split; intro H; try reflexivity; try discriminate.
  - exists v. repeat split; [now right | discriminate].
  - destruct H as (w & [A|A] & _); discriminate.
Qed.

(** 54 MBit for the interface and 6 MBit for the neighbor 7 *)
Definition c_ex : section := fun i =>
  if i =? RX_BITRATE then [mkLine (Some 1000000) []; mkLine (Some 54000000) []; mkLine (Some 6000000) [Some 7]] else [].
Definition c_new : section := fun i => if i =? RX_BITRATE then [mkLine (Some 11000000) []] else [].
Definition here (d : data) : option Z := match d_org d, d_meta d with Some _, Some _ => Some (d_val d) | _, _ => None end.
Lemma c_ex_ok : section_ok c_ex.
Proof.
  intros i l. unfold c_ex. destruct (i =? RX_BITRATE); cbn; [|tauto].
  intros [<-|[<-|[<-|[]]]]; cbn; (split; [discriminate|intuition discriminate]).
Qed.
Example C163_ex :
  let b := st_db (run (fun _ => 10) (fun s => s) [Change 3 (Some c_ex)]) in
  here (b (3, None, 5)) = Some 54000000 /\ here (b (3, Some 7, 5)) = Some 6000000 /\
  here (b (3, Some 8, 5)) = None /\ here (b (3, None, 4)) = None /\ here (b (4, None, 5)) = None.
Proof. vm_compute. repeat split; reflexivity. Qed.
Lemma c_ex_configured : configured c_ex None 5 54000000.
Proof.
  split; [cbn; tauto|]. exists [mkLine (Some 1000000) []], (mkLine (Some 54000000) []), [mkLine (Some 6000000) [Some 7]].
  split; [reflexivity|]. split; [split; reflexivity|].
  intros x w [<-|[]] [_ H]. discriminate.
Qed.

(** one second after the start (the commit of the change starts the timer) the
    configured value is gone *)
Theorem C163_timer_refuted : exists fp phy s c m i v,
  section_ok c /\ configured c m i v /\
  forall w, ~ ours (st_db (run fp phy [Change s (Some c); Timer]) (s, m, i)) w.
Proof.
  exists (fun _ => 10), (fun s => s), 3, c_ex, None, 5, 54000000.
  split; [exact c_ex_ok|]. split; [exact c_ex_configured|].
  intros w ([A|A] & _); vm_compute in A; discriminate.
Qed.
(** a changed value is neither the old nor the new one: there is none *)
Theorem C163_changed_value_refuted : exists fp phy s c c' m i v,
  section_ok c /\ section_ok c' /\ configured c' m i v /\
  forall w, ~ ours (st_db (run fp phy [Change s (Some c); Change s (Some c')]) (s, m, i)) w.
Proof.
  exists (fun _ => 10), (fun s => s), 3, c_ex, c_new, None, 5, 11000000.
  split; [exact c_ex_ok|]. split.
  { intros i l. unfold c_new. destruct (i =? RX_BITRATE); cbn; [|tauto].
    intros [<-|[]]; cbn; (split; [discriminate|intuition discriminate]). }
  split.
  { split; [cbn; tauto|]. exists [], (mkLine (Some 11000000) []), []. split; [reflexivity|]. split; [split; reflexivity|].
    intros x w []. }
  intros w ([A|A] & _); vm_compute in A; discriminate.
Qed.
(** if the name of the section is not that of the interface, the values are written to
    one network and removed from another: they stay when the section is removed *)
Theorem C163_section_name_refuted : exists fp phy s c m i v,
  section_ok c /\ configured c m i v /\
  ours (st_db (run fp phy [Change s (Some c); Change s None]) (s, m, i)) v.
Proof.
  exists (fun _ => 10), (fun _ => 9), 3, c_ex, None, 5, 54000000.
  split; [exact c_ex_ok|]. split; [exact c_ex_configured|].
  vm_compute. split; [now left|]. split; [discriminate|reflexivity].
Qed.
(** with two interfaces the timer can write the values of one to the other: interface 3
    has lost its values, interface 4 is unchanged *)
Definition c_tx : section := fun i => if i =? TX_BITRATE then [mkLine (Some 2000000) []] else [].
Theorem C163_other_section_refuted : exists fp c3 c3' c4,
  section_ok c3 /\ section_ok c3' /\ section_ok c4 /\ (forall m v, ~ configured c3' m 4 v) /\
  ours (st_db (run fp (fun s => s) [Change 3 (Some c3); Change 4 (Some c4); Change 3 (Some c3'); Unchanged (Some c4); Timer])
          (3, None, 4)) 2000000.
Proof.
  exists (fun _ => 10), c_ex, c_new, c_tx. split; [exact c_ex_ok|].
  split; [|split; [|split]].
  - intros i l. unfold c_new. destruct (i =? RX_BITRATE); cbn; [|tauto].
    intros [<-|[]]; cbn; (split; [discriminate|intuition discriminate]).
  - intros i l. unfold c_tx. destruct (i =? TX_BITRATE); cbn; [|tauto].
    intros [<-|[]]; cbn; (split; [discriminate|intuition discriminate]).
  - intros m v (_ & p & l & r & H & _). destruct p; discriminate.
  - vm_compute. split; [now right|]. split; [discriminate|reflexivity].
Qed.

Print Assumptions C163_other_section_refuted.
Print Assumptions C163_first_partial.
Print Assumptions C163_others_partial.
Print Assumptions C163_other_networks_partial.
Print Assumptions C163_removed_partial.
Print Assumptions C163_timer_alternates_partial.
Print Assumptions C163_timer_refuted.
Print Assumptions C163_changed_value_refuted.
Print Assumptions C163_section_name_refuted.
