(** The loop of rfc5444_writer_create_message ends if the mandatory addresses
    and any other one fit into a message; then every message has all of the
    mandatory addresses. *)
From Coq Require Import Permutation Sorted.
From Verif Require Import Base BitsModel BufLemmas WireSpec GenModel GenSpec GenLoop.

(** ** Sums over positions *)
Definition sumz {A} (h : A -> Z) (l : list A) : Z := fold_right Z.add 0 (map h l).
Lemma sumz_cons {A} (h : A -> Z) x l : sumz h (x :: l) = h x + sumz h l. Proof. reflexivity. Qed.
Lemma sumz_app {A} (h : A -> Z) a b : sumz h (a ++ b) = sumz h a + sumz h b.
Proof. induction a as [|x a IH]; cbn [app]; [reflexivity|]. rewrite !sumz_cons. lia. Qed.
Lemma sumz_nonneg {A} (h : A -> Z) l : (forall x, In x l -> 0 <= h x) -> 0 <= sumz h l.
Proof. induction l as [|x l IH]; intros H; [now cbn|]. rewrite sumz_cons. pose proof (H x (or_introl eq_refl)). specialize (IH (fun y I => H y (or_intror I))). lia. Qed.
Lemma sumz_ext {A} (h g : A -> Z) l : (forall x, In x l -> h x = g x) -> sumz h l = sumz g l.
Proof. induction l as [|x l IH]; intros H; [reflexivity|]. rewrite !sumz_cons, IH; [|intros; apply H; now right]. now rewrite (H x (or_introl eq_refl)). Qed.
Lemma sumz_incl (h : Z -> Z) a : forall b, (forall x, In x b -> 0 <= h x) -> NoDup a -> incl a b -> sumz h a <= sumz h b.
Proof.
  induction a as [|x a IH]; intros b P N I.
  - now apply sumz_nonneg.
  - inversion N; subst. destruct (in_split x b (I x (or_introl eq_refl))) as (b1 & b2 & ->).
    rewrite sumz_cons, sumz_app, sumz_cons.
    enough (sumz h a <= sumz h (b1 ++ b2)) by (rewrite sumz_app in *; lia).
    apply IH; [|assumption|].
    + intros y Y. apply P. apply in_app_or in Y. apply in_or_app. destruct Y; [now left|right; now right].
    + intros y Y. specialize (I y (or_intror Y)). apply in_app_or in I. apply in_or_app.
      destruct I as [I|[->|I]]; [now left|contradiction|now right].
Qed.

Lemma zrange_snoc lo n : zrange lo (S n) = zrange lo n ++ [lo + Z.of_nat n].
Proof.
  revert lo. induction n as [|n IH]; intros lo.
  - cbn [zrange app]. now replace (lo + Z.of_nat 0) with lo by lia.
  - change (zrange lo (S (S n))) with (lo :: zrange (lo + 1) (S n)). rewrite IH. cbn [zrange app].
    do 3 f_equal. lia.
Qed.
Lemma zrange_NoDup n : forall lo, NoDup (zrange lo n).
Proof. induction n as [|n IH]; intros lo; cbn [zrange]; constructor; [|apply IH]. rewrite zrange_In. lia. Qed.

(** the mandatory positions *)
Definition mpos (l : list gaddr) : list Z :=
  filter (fun p => match zget l p with Some a => ga_mand a | None => false end) (zrange 0 (length l)).
Lemma filter_ext_in' {A} (f g : A -> bool) l : (forall x, In x l -> f x = g x) -> filter f l = filter g l.
Proof. induction l as [|x l IH]; intros H; [reflexivity|]. cbn [filter]. rewrite (H x (or_introl eq_refl)), IH; [reflexivity|]. intros; apply H; now right. Qed.
Lemma mpos_map {B} (h : gaddr -> B) (d : B) l :
  map (fun p => match zget l p with Some a => h a | None => d end) (mpos l) = map h (filter ga_mand l).
Proof.
  induction l as [|x l IH] using rev_ind; [reflexivity|].
  unfold mpos. rewrite app_length. cbn [length]. rewrite Nat.add_1_r, zrange_snoc, !filter_app, !map_app.
  rewrite Z.add_0_l. change (Z.of_nat (length l)) with (zlen l).
  assert (X : zget (l ++ [x]) (zlen l) = Some x).
  { rewrite zget_app. destruct (Z.ltb_spec (zlen l) (zlen l)); [lia|]. now rewrite Z.sub_diag. }
  assert (E : forall p, In p (zrange 0 (length l)) -> zget (l ++ [x]) p = zget l p).
  { intros p I. apply zrange_In in I. rewrite zget_app. unfold zlen. destruct (Z.ltb_spec p (Z.of_nat (length l))); [reflexivity|lia]. }
  f_equal.
  - rewrite (filter_ext_in' _ (fun p => match zget l p with Some a => ga_mand a | None => false end)); [|intros p I; now rewrite E].
    fold (mpos l). rewrite <- IH. apply map_ext_in. intros p I. unfold mpos in I. apply filter_In in I as [I _]. now rewrite E.
  - cbn [filter]. rewrite X. destruct (ga_mand x); cbn [map]; [now rewrite X|reflexivity].
Qed.

Definition room_at (c : gcfg) (p : Z) : Z :=
  match zget (gc_addrs c) p with Some a => addr_room (gc_al c) a | None => 0 end.
Lemma mand_room_sum c : mand_room c = sumz (room_at c) (mpos (gc_addrs c)).
Proof. unfold mand_room, sumz, room_at. now rewrite (mpos_map (addr_room (gc_al c)) 0). Qed.
Lemma mpos_len c : zlen (mpos (gc_addrs c)) = zlen (filter ga_mand (gc_addrs c)).
Proof. unfold zlen. f_equal. rewrite <- (map_length (fun p => match zget (gc_addrs c) p with Some _ => 0 | None => 0 end)), (mpos_map (fun _ => 0) 0), map_length. reflexivity. Qed.
Lemma mpos_In c p : In p (mpos (gc_addrs c)) <-> mand_at c p = true.
Proof.
  unfold mpos, mand_at. rewrite filter_In, zrange_In. split; [now intros []|].
  intros H. split; [|exact H]. destruct (zget (gc_addrs c) p) eqn:G; [|discriminate]. apply zget_bound in G. unfold zlen in G. lia.
Qed.

Lemma tlv_room_nonneg t : 0 <= tlv_room t.
Proof. unfold tlv_room. pose proof (zlen_nonneg (gt_value t)). destruct (gt_ext t =? 0), (zlen (gt_value t) =? 0), (zlen (gt_value t) <? 256); lia. Qed.
Lemma addr_room_pos al a : 0 <= al -> 6 <= addr_room al a.
Proof. intros H. unfold addr_room. pose proof (sumz_nonneg tlv_room (ga_tlvs a) (fun t _ => tlv_room_nonneg t)). unfold sumz in *. lia. Qed.
Lemma room_at_nonneg c p : 0 <= gc_al c -> 0 <= room_at c p.
Proof. intros H. unfold room_at. destruct (zget _ p); [|lia]. pose proof (addr_room_pos _ g H). lia. Qed.

Lemma tlv_cost_room t : tlv_ok t -> tlv_cost t = tlv_room t.
Proof.
  intros (_ & E & _ & _). unfold tlv_cost, tlv_room, gt_len, is_u8 in *. pose proof (zlen_nonneg (gt_value t)).
  rewrite Z.gtb_ltb. destruct (Z.ltb_spec 0 (gt_ext t)), (Z.eqb_spec (gt_ext t) 0); try lia.
  all: rewrite !Z.gtb_ltb; destruct (Z.ltb_spec 255 (zlen (gt_value t))), (Z.ltb_spec 0 (zlen (gt_value t))), (Z.eqb_spec (zlen (gt_value t)) 0), (Z.ltb_spec (zlen (gt_value t)) 256); lia.
Qed.
Lemma tlvs_cost_room ts : Forall tlv_ok ts -> fold_right Z.add 0 (map tlv_cost ts) = fold_right Z.add 0 (map tlv_room ts).
Proof. induction 1 as [|t ts T _ IH]; [reflexivity|]. cbn [map fold_right]. now rewrite IH, tlv_cost_room. Qed.

(** ** Bounds for the compression table *)
Section Bounds.
Variables (al T R : Z).
Hypothesis AL : 1 <= al.
(** every entry: an address of [ok], total at most T *)
Definition entries (ok : Z -> Prop) (acs : list acse) : Prop :=
  forall i, 0 <= i < al -> exists e p, zget acs i = Some e /\ ac_ptr e = Some p /\ ok p /\ ac_total e <= T.

Lemma close_best_bound acs : forall is best size b sz, close_best acs is best size = Some (b, sz) -> sz <= size.
Proof.
  induction is as [|i is IH]; intros best size b sz; cbn [close_best]; [intros [= <- <-]; lia|].
  destruct (zget acs i) as [e|]; [|discriminate]. destruct (Z.ltb_spec (ac_total e) size); intros HH; apply IH in HH; lia.
Qed.
Lemma close_totals_entries ok size : forall is acs acs', (forall i, In i is -> 0 <= i < al) -> size <= T \/ is = [] ->
  close_totals acs is size = Some acs' -> entries ok acs -> entries ok acs'.
Proof.
  induction is as [|i is IH]; intros acs acs' IN SZ; cbn [close_totals]; [now intros [= <-]|].
  destruct (zget acs i) as [e|] eqn:G; [|discriminate]. destruct (zset acs i _) as [acs1|] eqn:Z1; [|discriminate].
  destruct SZ as [SZ|]; [|discriminate].
  intros H E. eapply IH; [intros; apply IN; now right|now left|exact H|].
  intros j J. rewrite (zget_zset _ _ _ _ _ Z1). destruct (E j J) as (ej & p & G1 & P & O & TT).
  destruct (Z.eqb_spec j i) as [->|]; [|now exists ej, p].
  exists (set_total e size), p. rewrite G1 in G. injection G as <-. split; [reflexivity|]. split; [exact P|]. split; [exact O|]. exact SZ.
Qed.
Lemma close_entries ok acs lo ch acs' lo' : 0 <= ch -> close_addrblock al acs lo ch = Some (acs', lo') -> entries ok acs -> entries ok acs'.
Proof.
  intros CH. unfold close_addrblock. rewrite Z.gtb_ltb. destruct (Z.ltb_spec al ch); [now intros [= <- <-]|].
  destruct (zget acs ch) as [e|] eqn:G; [|discriminate].
  destruct (close_best _ _ _ _) as [[best size]|] eqn:B; [|discriminate].
  destruct (zget acs best); [|discriminate].
  destruct (close_totals _ _ _) as [acs1|] eqn:C; [|discriminate]. intros [= <- <-] E.
  eapply close_totals_entries; [| |exact C|exact E].
  - intros i I. apply zrange_In in I. lia.
  - destruct (Z.eq_dec ch al) as [->|].
    + right. now replace (Z.to_nat (al - (al + 1))) with O by lia.
    + left. apply close_best_bound in B. destruct (E ch) as (e' & p & G' & _ & _ & TT); [lia|].
      rewrite G in G'. injection G' as <-. lia.
Qed.

(** after the new address *)
Definition bounded (pos : Z) (ok : Z -> Prop) (acs : list acse) (i : Z) : Prop :=
  exists e p, zget acs i = Some e /\ ac_ptr e = Some p /\ (p = pos \/ ok p) /\ ac_total e <= T /\ ac_total e + ac_current e <= T + R.
Lemma compress_one_bound objs prev a pos index spl ch acs st i acs' st' ok :
  0 <= i < al -> 2 + 1 + al + 1 + 2 + fold_right Z.add 0 (map tlv_cost (ga_tlvs a)) <= R ->
  (forall j, i <= j < al -> exists e, zget acs j = Some e /\ ac_total e <= T /\ (prev <> None -> exists p, ac_ptr e = Some p /\ ok p)) ->
  compress_one al objs prev a pos index spl ch acs st i = Some (acs', st') ->
  bounded pos ok acs' i /\ (forall j, j <> i -> zget acs' j = zget acs j).
Proof.
  intros Hi HR E. unfold compress_one.
  destruct (E i ltac:(lia)) as (e & G & TE & P). rewrite G.
  destruct (E (al - 1) ltac:(lia)) as (el & Gl & TL & _). rewrite Gl.
  cbv zeta. set (new_cost := 2 + _ + al + _ + 2 + _).
  assert (NC : new_cost <= R).
  { unfold new_cost. destruct (i >? 0), (negb (ga_plen a =? al * 8)); lia. }
  clearbody new_cost.
  set (closed := _ || _) at 1 2.
  destruct (if closed then _ else _) as [[cc multi]|]; [|discriminate].
  set (cont := cc + _). clearbody cont.
  set (restart := closed || _).
  assert (RS : prev = None -> restart = true).
  { intros ->. reflexivity. }
  assert (RN : restart = false -> ac_total e + cont <= ac_total el + new_cost).
  { unfold restart. intros H%orb_false_iff. destruct H as [_ H]. rewrite Z.gtb_ltb in H. now apply Z.ltb_ge in H. }
  clearbody restart closed.
  destruct (zset acs i _) as [acs1|] eqn:ZS; [|discriminate]. intros [= <- <-].
  split; [|intros j J; rewrite (zget_zset _ _ _ _ _ ZS); destruct (Z.eqb_spec j i); [lia|reflexivity]].
  unfold bounded. rewrite (zget_zset _ _ _ _ _ ZS), Z.eqb_refl.
  destruct restart.
  - eexists _, pos. split; [reflexivity|]. cbn [ac_ptr ac_total ac_current]. split; [reflexivity|]. split; [now left|]. split; lia.
  - destruct (P ltac:(intros ->; specialize (RS eq_refl); discriminate)) as (p & PP & O).
    eexists _, p. split; [reflexivity|]. cbn [ac_ptr ac_total ac_current]. split; [exact PP|]. split; [now right|].
    specialize (RN eq_refl). split; lia.
Qed.

Lemma compress_all_bound objs prev a pos index spl ch ok :
  2 + 1 + al + 1 + 2 + fold_right Z.add 0 (map tlv_cost (ga_tlvs a)) <= R ->
  forall n lo acs st acs' st', 0 <= lo -> lo + Z.of_nat n = al ->
  (forall j, 0 <= j < lo -> bounded pos ok acs j) ->
  (forall j, lo <= j < al -> exists e, zget acs j = Some e /\ ac_total e <= T /\ (prev <> None -> exists p, ac_ptr e = Some p /\ ok p)) ->
  compress_all al objs prev a pos index spl ch (zrange lo n) acs st = Some (acs', st') ->
  forall j, 0 <= j < al -> bounded pos ok acs' j.
Proof.
  intros HR. induction n as [|n IH]; intros lo acs st acs' st' L0 L B E; cbn [zrange compress_all].
  - intros [= <- <-] j J. apply B. lia.
  - destruct (compress_one _ _ _ _ _ _ _ _ _ _ _) as [[acs1 st1]|] eqn:C; [|discriminate].
    eapply compress_one_bound in C; [|lia|exact HR|exact E]. destruct C as [C1 C2].
    intros H. eapply IH; [| | | |exact H]; [lia|lia| |].
    + intros j J. destruct (Z.eq_dec j lo) as [->|NJ]; [exact C1|].
      specialize (B j ltac:(lia)). unfold bounded in *. now rewrite C2.
    + intros j J. rewrite C2 by lia. apply E. lia.
Qed.
End Bounds.

Lemma entries_0 al objs a pos index spl acs' st' T R : 1 <= al <= 16 -> 0 <= T ->
  2 + 1 + al + 1 + 2 + fold_right Z.add 0 (map tlv_cost (ga_tlvs a)) <= R ->
  compress_all al objs None a pos index spl 0 (zrange 0 (Z.to_nat al)) acs0 tst0 = Some (acs', st') ->
  forall j, 0 <= j < al -> bounded T R pos (fun _ => False) acs' j.
Proof.
  intros AL HT HR H. eapply (compress_all_bound al T R); [exact HR| | | | |exact H]; [lia|lia|intros; lia|].
  intros j J. exists acse0. unfold acs0. rewrite zget_repeat.
  destruct (Z.leb_spec 0 j), (Z.ltb_spec j (Z.of_nat 16)); try lia. cbn [andb].
  split; [reflexivity|]. split; [exact HT|]. congruence.
Qed.

(** ** Choosing a head *)
Lemma best_head_nonneg objs acs index : forall is best size b, (forall i, In i is -> 0 <= i) -> best <> -1 ->
  best_head objs acs index is best size = Some b -> b <> -1.
Proof.
  induction is as [|i is IH]; intros best size b IN NB; cbn [best_head]; [now intros [= <-]|].
  destruct (zget acs i) as [e|]; [|discriminate]. destruct (index_of objs (ac_ptr e)); [|discriminate].
  destruct (_ && _); apply IH; try (intros; apply IN; now right); try assumption.
  specialize (IN i (or_introl eq_refl)). lia.
Qed.
Lemma best_head_found objs acs index : forall is size b i e ix, (forall j, In j is -> 0 <= j) -> In i is ->
  zget acs i = Some e -> index_of objs (ac_ptr e) = Some ix -> ac_total e + ac_current e < size -> index - ix <= 254 ->
  best_head objs acs index is (-1) size = Some b -> b <> -1.
Proof.
  induction is as [|k is IH]; intros size b i e ix IN I G X S C; [destruct I|]. cbn [best_head].
  destruct I as [->|I].
  - rewrite G, X. destruct (Z.ltb_spec (ac_total e + ac_current e) size); [|lia].
    destruct (Z.leb_spec (index - ix) 254); [|lia]. cbn [andb]. apply best_head_nonneg; [intros; apply IN; now right|].
    specialize (IN i (or_introl eq_refl)). lia.
  - destruct (zget acs k) as [ek|]; [|discriminate]. destruct (index_of objs (ac_ptr ek)); [|discriminate].
    destruct (_ && _).
    + apply best_head_nonneg; [intros; apply IN; now right|]. specialize (IN k (or_introl eq_refl)). lia.
    + eapply IH; try eassumption. intros; apply IN; now right.
Qed.

Lemma add_current_get : forall n lo acs acs' , add_current acs (zrange lo n) = Some acs' ->
  forall j, zget acs' j = if (lo <=? j) && (j <? lo + Z.of_nat n)
                          then match zget acs j with Some e => Some (set_total e (ac_total e + ac_current e)) | None => None end
                          else zget acs j.
Proof.
  induction n as [|n IH]; intros lo acs acs'; cbn [zrange add_current].
  - intros [= <-] j. destruct (Z.leb_spec lo j), (Z.ltb_spec j (lo + Z.of_nat 0)); try reflexivity. lia.
  - destruct (zget acs lo) as [e|] eqn:G; [|discriminate]. destruct (zset acs lo _) as [acs1|] eqn:ZS; [|discriminate].
    intros H j. rewrite (IH _ _ _ H j), (zget_zset _ _ _ _ _ ZS).
    destruct (Z.eqb_spec j lo) as [->|].
    + destruct (Z.leb_spec (lo + 1) lo); [lia|]. cbn [andb].
      destruct (Z.leb_spec lo lo), (Z.ltb_spec lo (lo + Z.of_nat (S n))); try lia. cbn [andb]. now rewrite G.
    + destruct (Z.leb_spec (lo + 1) j), (Z.leb_spec lo j), (Z.ltb_spec j (lo + 1 + Z.of_nat n)), (Z.ltb_spec j (lo + Z.of_nat (S n))); try lia; reflexivity.
Qed.

(** ** The invariant *)
Record tinv (c : gcfg) (s : gstate) : Prop := {
  t_acs : gs_cur s <> [] -> entries (gc_al c) (sumz (room_at c) (gs_cur s)) (fun p => In p (gs_cur s)) (gs_acs s);
  t_idx : forall p, In p (gs_cur s) -> exists o, zget (gs_objs s) p = Some o /\ gs_idx s - zlen (gs_cur s) <= ao_index o;
  t_first : gs_first s = false -> gs_cur s <> [];
  t_nm : gs_nonmand s <> 0 -> exists a, In a (gc_addrs c) /\ ga_mand a = false
}.

Lemma common_nonneg : forall a b, 0 <= common a b.
Proof. induction a as [|x a IH]; intros [|y b]; cbn [common]; try lia. destruct (x =? y); [specialize (IH b)|]; lia. Qed.

Lemma dn_index objs p i d : dn objs p = Some (i, d) -> exists o, zget objs p = Some o /\ ao_index o = i.
Proof. unfold dn. destruct (zget objs p) as [o|]; [|discriminate]. intros [= <- <-]. now exists o. Qed.

Lemma prev_of_In cur : cur <> [] -> exists p, prev_of cur = Some p /\ In p cur.
Proof.
  destruct cur as [|x cur]; [congruence|]. intros _. exists (List.last (x :: cur) x). split; [reflexivity|].
  destruct (exists_last (l := x :: cur)) as (l & y & E); [discriminate|]. rewrite E, last_last. apply in_or_app. right. now left.
Qed.

(** the new address costs at most the size of its own block *)
Lemma compress_bound c s a o objs objs1 acs1 st spl :
  cfg_ok c -> inv c s -> tinv c s ->
  zget (gc_addrs c) (gs_pos s) = Some a -> zget (gs_objs s) (gs_pos s) = Some o ->
  zset (gs_objs s) (gs_pos s) (set_index o (gs_idx s)) = Some objs ->
  compress_address (gc_al c) (gc_addrs c) objs (if gs_first s then acs0 else gs_acs s) (if gs_first s then tst0 else gs_tst s)
    (prev_of (gs_cur s)) (gs_pos s) (if gs_first s then 1 else gs_spl s) = Some (objs1, acs1, st, spl) ->
  forall j, 0 <= j < gc_al c ->
    bounded (sumz (room_at c) (gs_cur s)) (room_at c (gs_pos s)) (gs_pos s) (fun p => In p (gs_cur s)) acs1 j.
Proof.
  intros (AL & OK & _) I TI GA GO ZS CA j J.
  assert (RA : 2 + 1 + gc_al c + 1 + 2 + fold_right Z.add 0 (map tlv_cost (ga_tlvs a)) <= room_at c (gs_pos s)).
  { unfold room_at. rewrite GA. unfold addr_room. rewrite tlvs_cost_room; [lia|].
    apply (Forall_zget _ _ _ _ OK) in GA. apply GA. }
  assert (T0 : 0 <= sumz (room_at c) (gs_cur s)).
  { apply sumz_nonneg. intros p _. apply room_at_nonneg. lia. }
  unfold compress_address in CA. rewrite GA in CA. rewrite (zget_zset _ _ _ _ _ ZS), Z.eqb_refl in CA.
  destruct (gs_first s) eqn:FS.
  - rewrite (i_cur c s I FS) in CA |- *. cbn [prev_of] in CA.
    destruct (compress_all _ _ _ _ _ _ _ _ _ _ _) as [[acs' st']|] eqn:CC; [|discriminate]. injection CA as <- <- <- <-.
    eapply (entries_0 _ _ _ _ _ _ _ _ _ _ AL T0 RA) in CC; [|exact J].
    rewrite (i_cur c s I FS) in CC. destruct CC as (e & p & G & P & O & TE & TC). exists e, p. 
    split; [exact G|]. split; [exact P|]. split; [|split; assumption]. destruct O as [O|[]]. now left.
  - pose proof (t_first c s TI FS) as NE. destruct (prev_of_In _ NE) as (pp & PV & PI). rewrite PV in CA.
    destruct (zget (gc_addrs c) pp) as [la|]; [|discriminate]. destruct (zget objs pp) as [lo|] eqn:GL; [|discriminate].
    destruct (close_addrblock _ _ _ _) as [[acs2 lo']|] eqn:CL; [|discriminate].
    destruct (zset objs pp lo') as [objs2|] eqn:Z2; [|discriminate].
    destruct (compress_all _ _ _ _ _ _ _ _ _ _ _) as [[acs' st']|] eqn:CC; [|discriminate]. injection CA as <- <- <- <-.
    eapply close_entries in CL; [|lia|apply common_nonneg|exact (t_acs c s TI NE)].
    eapply (compress_all_bound (gc_al c) (sumz (room_at c) (gs_cur s)) (room_at c (gs_pos s))); [exact RA| | | | |exact CC|exact J]; [lia|lia|intros; lia|].
    intros k K. destruct (CL k K) as (e & p & G & P & O & TE). exists e. split; [exact G|]. split; [exact TE|].
    intros _. now exists p.
Qed.

Lemma fits_step c s a o objs objs1 acs1 st spl b :
  cfg_ok c -> inv c s -> tinv c s ->
  zget (gc_addrs c) (gs_pos s) = Some a -> zget (gs_objs s) (gs_pos s) = Some o ->
  zset (gs_objs s) (gs_pos s) (set_index o (gs_idx s)) = Some objs ->
  compress_address (gc_al c) (gc_addrs c) objs (if gs_first s then acs0 else gs_acs s) (if gs_first s then tst0 else gs_tst s)
    (prev_of (gs_cur s)) (gs_pos s) (if gs_first s then 1 else gs_spl s) = Some (objs1, acs1, st, spl) ->
  sumz (room_at c) (gs_cur s) + room_at c (gs_pos s) <= gc_max c -> zlen (gs_cur s) <= 254 ->
  best_head objs1 acs1 (gs_idx s) (zrange 0 (Z.to_nat (gc_al c))) (-1) (gc_max c + 1) = Some b -> b <> -1.
Proof.
  intros OK I TI GA GO ZS CA FIT LEN BH. pose proof OK as (AL & _ & _).
  pose proof (compress_frame _ _ _ _ _ _ _ _ _ _ _ _ CA) as [_ FR].
  destruct (compress_bound _ _ _ _ _ _ _ _ _ OK I TI GA GO ZS CA 0 ltac:(lia)) as (e & p & G & P & O & TE & TC).
  assert (IX : exists ix, index_of objs1 (ac_ptr e) = Some ix /\ gs_idx s - ix <= 254).
  { rewrite P. unfold index_of. specialize (FR p). unfold dn in FR. rewrite (zget_zset _ _ _ _ _ ZS) in FR.
    destruct (Z.eqb_spec p (gs_pos s)) as [EP|NP].
    - destruct (zget objs1 p) as [o1|]; [|discriminate]. injection FR as FR _. exists (ao_index o1). split; [reflexivity|].
      rewrite FR. cbn [set_index ao_index]. lia.
    - destruct O as [O|O]; [congruence|]. destruct (t_idx c s TI p O) as (op & GP & LE). rewrite GP in FR.
      destruct (zget objs1 p) as [o1|]; [|discriminate]. injection FR as FR _. exists (ao_index o1). split; [reflexivity|]. lia. }
  destruct IX as (ix & IX & LE).
  eapply best_head_found; [| |exact G|exact IX| |exact LE|exact BH].
  - intros k K. apply zrange_In in K. lia.
  - apply zrange_In. lia.
  - lia.
Qed.

(** a message is cut only behind an address which is not mandatory *)
Lemma sorted_NoDup l : StronglySorted Z.lt l -> NoDup l.
Proof.
  induction 1 as [|x l S IH F]; constructor; [|exact IH]. intros I. rewrite Forall_forall in F. specialize (F _ I). lia.
Qed.
Lemma NoDup_snoc (l : list Z) p : NoDup l -> ~ In p l -> NoDup (l ++ [p]).
Proof.
  intros N I. apply (Permutation_NoDup (l := p :: l)); [apply Permutation_cons_append|]. now constructor.
Qed.
Lemma cut_behind c s a o objs objs1 acs1 st spl :
  cfg_ok c -> progress_possible c -> inv c s -> tinv c s ->
  zget (gc_addrs c) (gs_pos s) = Some a -> zget (gs_objs s) (gs_pos s) = Some o ->
  zset (gs_objs s) (gs_pos s) (set_index o (gs_idx s)) = Some objs ->
  compress_address (gc_al c) (gc_addrs c) objs (if gs_first s then acs0 else gs_acs s) (if gs_first s then tst0 else gs_tst s)
    (prev_of (gs_cur s)) (gs_pos s) (if gs_first s then 1 else gs_spl s) = Some (objs1, acs1, st, spl) ->
  best_head objs1 acs1 (gs_idx s) (zrange 0 (Z.to_nat (gc_al c))) (-1) (gc_max c + 1) = Some (-1) ->
  gs_nonmand s <> 0 -> exists q, In q (gs_cur s) /\ mand_at c q = false.
Proof.
  intros OK [PL PR] I TI GA GO ZS CA BH NM.
  destruct (existsb (fun q => negb (mand_at c q)) (gs_cur s)) eqn:X.
  { apply existsb_exists in X as (q & Q & M). exists q. split; [exact Q|]. now apply negb_true_iff. }
  exfalso.
  assert (ALL : forall q, In q (gs_cur s) -> mand_at c q = true).
  { intros q Q. destruct (mand_at c q) eqn:M; [reflexivity|]. assert (X' : existsb (fun q => negb (mand_at c q)) (gs_cur s) = true) by (apply existsb_exists; exists q; now rewrite M). congruence. }
  pose proof (sorted_NoDup _ (i_sorted c s I)) as ND.
  assert (INC : incl (gs_cur s) (mpos (gc_addrs c))) by (intros q Q; apply mpos_In; now apply ALL).
  pose proof OK as (AL & _ & _).
  assert (RN : forall x, In x (mpos (gc_addrs c)) -> 0 <= room_at c x) by (intros; apply room_at_nonneg; lia).
  assert (LEN : zlen (gs_cur s) <= 254).
  { pose proof (NoDup_incl_length ND INC). rewrite <- mpos_len in PL. unfold zlen in *. lia. }
  refine (fits_step _ _ _ _ _ _ _ _ _ _ OK I TI GA GO ZS CA _ LEN BH eq_refl).
  destruct (ga_mand a) eqn:MA.
  - destruct (t_nm c s TI NM) as (a' & IA & MA'). specialize (PR a' IA MA').
    pose proof (addr_room_pos (gc_al c) a' ltac:(lia)).
    assert (NI : ~ In (gs_pos s) (gs_cur s)).
    { intros Q. pose proof (i_below c s I) as B. rewrite Forall_forall in B. specialize (B _ Q). lia. }
    pose proof (sumz_incl (room_at c) (gs_cur s ++ [gs_pos s]) (mpos (gc_addrs c)) RN (NoDup_snoc _ _ ND NI)) as SI.
    rewrite <- mand_room_sum, sumz_app, sumz_cons in SI. change (sumz (room_at c) []) with 0 in SI.
    enough (incl (gs_cur s ++ [gs_pos s]) (mpos (gc_addrs c))) by (specialize (SI H0); lia).
    intros q Q. apply in_app_or in Q as [Q|[<-|[]]]; [now apply INC|]. apply mpos_In. now rewrite (mand_at_Some _ _ _ GA).
  - specialize (PR a).
    assert (IA : In a (gc_addrs c)). { unfold zget in GA. destruct (gs_pos s <? 0); [discriminate|]. eapply nth_error_In, GA. }
    specialize (PR IA MA).
    pose proof (sumz_incl (room_at c) (gs_cur s) (mpos (gc_addrs c)) RN ND INC) as SI. rewrite <- mand_room_sum in SI.
    unfold room_at at 2. rewrite GA. lia.
Qed.

Lemma tinv_init c : tinv c (g_init c).
Proof. constructor; cbn [g_init gs_cur gs_first gs_nonmand]; try congruence. intros p []. Qed.

Lemma step_tinv c s s' : cfg_ok c -> inv c s -> tinv c s -> g_step c s = GRun s' -> tinv c s'.
Proof.
  intros OK I TI H. pose proof (step_case c s) as CS. rewrite H in CS.
  inversion CS as [a o GA GO D M EQ | | | a o objs acs st spl objs1 acs1 objs2 acs2 f GA GO SK ZS CA BH NM EM EQA EQ
    | a o o1 objs st spl objs1 acs1 acs2 objs2 best GA GO SK ZS CA BH NB AC G1 Z2 EQ | | ]; subst s'.
  - destruct TI as [T1 T2 T3 T4]. constructor; cbn; assumption.
  - destruct TI as [T1 T2 T3 T4]. constructor; cbn; try congruence; try assumption. intros p [].
  - pose proof (compress_frame _ _ _ _ _ _ _ _ _ _ _ _ CA) as [_ FR].
    pose proof (compress_bound _ _ _ _ _ _ _ _ _ OK I TI GA GO ZS CA) as CB.
    destruct TI as [T1 T2 T3 T4]. constructor; cbn [gs_cur gs_acs gs_objs gs_idx gs_first gs_nonmand].
    + intros _ i Hi. destruct (CB i Hi) as (e & p & G & P & O & TE & TC).
      exists (set_total e (ac_total e + ac_current e)), p. rewrite (add_current_get _ _ _ _ AC i).
      destruct (Z.leb_spec 0 i), (Z.ltb_spec i (0 + Z.of_nat (Z.to_nat (gc_al c)))); try lia. cbn [andb]. rewrite G.
      split; [reflexivity|]. split; [exact P|]. split; [apply in_or_app; destruct O as [->|O]; [right; now left|now left]|].
      rewrite sumz_app. unfold sumz at 2. cbn [map fold_right set_total ac_total]. lia.
    + intros p Q. rewrite zlen_app. change (zlen [gs_pos s]) with 1.
      specialize (FR p). unfold dn in FR. rewrite (zget_zset _ _ _ _ _ ZS) in FR.
      rewrite (zget_zset _ _ _ _ _ Z2). destruct (Z.eqb_spec p (gs_pos s)) as [EP|NP].
      * exists (set_done o1). split; [reflexivity|]. rewrite EP, G1 in FR. injection FR as FR _. cbn [set_done ao_index]. rewrite FR.
        cbn [set_index ao_index]. pose proof (zlen_nonneg (gs_cur s)). lia.
      * apply in_app_or in Q as [Q|[Q|[]]]; [|congruence]. destruct (T2 p Q) as (op & GP & LE). rewrite GP in FR.
        destruct (zget objs1 p) as [o2|]; [|discriminate]. injection FR as FR _. exists o2. split; [reflexivity|]. lia.
    + intros _ E. now apply app_eq_nil in E.
    + destruct (ao_done o1); cbn [negb andb]; [exact T4|].
      destruct (ga_mand a) eqn:MA; cbn [negb]; [exact T4|]. intros _. exists a. split; [|exact MA].
      unfold zget in GA. destruct (gs_pos s <? 0); [discriminate|]. eapply nth_error_In, GA.
Qed.

(** ** Termination *)
Definition others (c : gcfg) (l : list Z) : list Z := filter (fun p => negb (mand_at c p)) l.
Definition measure (c : gcfg) (s : gstate) : Z :=
  (zlen (gc_addrs c) + 2) * (zlen (gc_addrs c) - zlen (others c (positions (gs_out s)))) + (zlen (gc_addrs c) - gs_pos s).

Lemma others_app c a b : others c (a ++ b) = others c a ++ others c b. Proof. apply filter_app. Qed.
Lemma count_filter (f : Z -> bool) l p : count_occ Z.eq_dec (filter f l) p = if f p then count_occ Z.eq_dec l p else 0%nat.
Proof.
  induction l as [|x l IH]; cbn [filter count_occ]; [now destruct (f p)|].
  destruct (Z.eq_dec x p) as [->|NX].
  - destruct (f p) eqn:F; [|exact IH]. cbn [count_occ]. destruct (Z.eq_dec p p); [|congruence]. now rewrite IH.
  - destruct (f x); [|exact IH]. cbn [count_occ]. destruct (Z.eq_dec x p); [congruence|exact IH].
Qed.

Lemma others_bound c s : inv c s -> zlen (others c (positions (gs_out s) ++ gs_cur s)) <= zlen (gc_addrs c).
Proof.
  intros I.
  assert (R : forall p, In p (positions (gs_out s) ++ gs_cur s) -> 0 <= p < zlen (gc_addrs c)).
  { intros p P. apply in_app_or in P as [P|P].
    - unfold positions in P. apply in_concat in P as (l & L & P). apply in_map_iff in L as (f & <- & F).
      destruct (i_out c s I f F) as [_ X]. destruct (X p P) as (a & A). now apply zget_bound in A.
    - pose proof (i_below c s I) as B. rewrite Forall_forall in B. specialize (B _ P). pose proof (i_pos c s I). lia. }
  assert (ND : NoDup (others c (positions (gs_out s) ++ gs_cur s))).
  { apply (NoDup_count_occ Z.eq_dec). intros p. unfold others. rewrite count_filter.
    destruct (mand_at c p) eqn:M; cbn [negb]; [lia|].
    destruct (in_dec Z.eq_dec p (positions (gs_out s) ++ gs_cur s)) as [P|P].
    - rewrite (i_count c s I p (R p P) M). destruct (done_at _ _); lia.
    - apply (count_occ_not_In Z.eq_dec) in P. rewrite P. lia. }
  assert (INC : incl (others c (positions (gs_out s) ++ gs_cur s)) (zrange 0 (length (gc_addrs c)))).
  { intros p P. apply filter_In in P as [P _]. apply zrange_In. specialize (R p P). unfold zlen in R. lia. }
  pose proof (NoDup_incl_length ND INC) as L.
  assert (ZL : forall n lo, length (zrange lo n) = n) by (induction n; intros; cbn [zrange length]; [reflexivity|now rewrite IHn]).
  rewrite ZL in L. unfold zlen. lia.
Qed.

Lemma step_measure c s s' : cfg_ok c -> progress_possible c -> inv c s -> tinv c s ->
  g_step c s = GRun s' -> measure c s' < measure c s.
Proof.
  intros OK PP I TI H. pose proof (step_case c s) as CS. rewrite H in CS.
  pose proof (i_pos c s I) as PO. pose proof (others_bound c s I) as OB. pose proof (zlen_nonneg (gc_addrs c)) as NN.
  inversion CS as [a o GA GO D M EQ | | | a o objs acs st spl objs1 acs1 objs2 acs2 f GA GO SK ZS CA BH NM EM EQA EQ
    | a o o1 objs st spl objs1 acs1 acs2 objs2 best GA GO SK ZS CA BH NB AC G1 Z2 EQ | | ]; subst s'; unfold measure; cbn [gs_out gs_pos].
  - lia.
  - pose proof (emit_frame _ _ _ _ _ _ _ _ _ EM) as [_ FM]. rewrite positions_app, FM, others_app, zlen_app.
    destruct (cut_behind _ _ _ _ _ _ _ _ _ OK PP I TI GA GO ZS CA BH NM) as (q & Q & MQ).
    assert (1 <= zlen (others c (gs_cur s))).
    { destruct (others c (gs_cur s)) as [|x l] eqn:E.
      - assert (X : In q (others c (gs_cur s))) by (apply filter_In; now rewrite MQ). rewrite E in X. destruct X.
      - rewrite zlen_cons. pose proof (zlen_nonneg l). lia. }
    assert (0 <= if gs_first s then gs_pos s else gs_fp s).
    { destruct (gs_first s) eqn:F; [lia|]. pose proof (i_fp c s I F). lia. }
    nia.
  - lia.
Qed.

Lemma run_terminates c : gc_addrs c <> [] -> cfg_ok c -> progress_possible c ->
  forall k s, inv c s -> tinv c s -> measure c s < Z.of_nat k -> exists n, forall s', g_run n c s <> GRun s'.
Proof.
  intros NE OK PP. induction k as [|k IH]; intros s I TI M.
  - exfalso. unfold measure in M. pose proof (others_bound c s I) as OB. rewrite others_app, zlen_app in OB.
    pose proof (zlen_nonneg (others c (gs_cur s))). pose proof (zlen_nonneg (gc_addrs c)). pose proof (i_pos c s I). nia.
  - destruct (g_step c s) as [s1| |] eqn:GS.
    + pose proof (step_inv c s NE I) as I1. rewrite GS in I1.
      pose proof (step_measure c s s1 OK PP I TI GS).
      destruct (IH s1 I1 (step_tinv _ _ _ OK I TI GS) ltac:(lia)) as (n & N). exists (S n). cbn [g_run]. rewrite GS. exact N.
    + exists 1%nat. cbn [g_run]. rewrite GS. congruence.
    + exists 1%nat. cbn [g_run]. rewrite GS. congruence.
Qed.
Lemma generate_terminates c : cfg_ok c -> progress_possible c -> exists n, forall s, generate n c <> GRun s.
Proof.
  intros OK PP. unfold generate. destruct (gc_addrs c) as [|a l] eqn:E; [exists O; congruence|].
  assert (NE : gc_addrs c <> []) by congruence.
  apply (run_terminates c NE OK PP (S (Z.to_nat (measure c (g_init c))))); [now apply inv_init|apply tinv_init|lia].
Qed.

(** ** Mandatory addresses *)
Definition minv (c : gcfg) (s : gstate) : Prop := mandatory_everywhere c (gs_out s).
Lemma cur_has_mand c s : mand_first c -> inv c s -> gs_first s = false -> (exists q, In q (gs_cur s) /\ mand_at c q = false) ->
  forall p a, zget (gc_addrs c) p = Some a -> ga_mand a = true -> In p (gs_cur s).
Proof.
  intros MF I FS (q & Q & MQ) p a GA MA. destruct (i_m2 c s I FS) as [_ X].
  pose proof (i_below c s I) as B. rewrite Forall_forall in B. specialize (B _ Q). pose proof (i_pos c s I).
  destruct (zget_Some (gc_addrs c) q ltac:(lia)) as (b & GB). rewrite (mand_at_Some _ _ _ GB) in MQ.
  pose proof (MF q p b a GB GA MQ MA). pose proof (zget_bound _ _ _ GA). apply X; [lia|]. now rewrite (mand_at_Some _ _ _ GA).
Qed.
Lemma step_minv c s : gc_addrs c <> [] -> cfg_ok c -> progress_possible c -> mand_first c -> inv c s -> tinv c s -> minv c s ->
  match g_step c s with GRun s' => minv c s' | GDone r out => mandatory_everywhere c out | GFault => True end.
Proof.
  intros NE OK PP MF I TI MI. destruct (step_case c s) as
    [a o GA GO D M | | NM | a o objs acs st spl objs1 acs1 objs2 acs2 f GA GO SK ZS CA BH NM EM ->
    | a o o1 objs st spl objs1 acs1 acs2 objs2 best GA GO SK ZS CA BH NB AC G1 Z2 | E L | lp objs1 acs1 f E L EM];
    try exact Logic.I; try exact MI.
  - pose proof (emit_frame _ _ _ _ _ _ _ _ _ EM) as [_ FM].
    pose proof (cut_behind _ _ _ _ _ _ _ _ _ OK PP I TI GA GO ZS CA BH NM) as CB.
    intros p b g GB MB G. apply in_app_or in G as [G|[<-|[]]]; [eapply MI; eassumption|]. rewrite FM.
    eapply cur_has_mand; try eassumption. destruct (gs_first s) eqn:F; [|reflexivity].
    destruct CB as (q & Q & _). rewrite (i_cur c s I F) in Q. destruct Q.
  - pose proof (emit_frame _ _ _ _ _ _ _ _ _ EM) as [_ FM].
    intros p b g GB MB G. apply in_app_or in G as [G|[<-|[]]]; [eapply MI; eassumption|]. rewrite FM.
    assert (PE : gs_pos s = zlen (gc_addrs c)).
    { pose proof (i_pos c s I). pose proof (i_len c s I).
      destruct (Z.eq_dec (gs_pos s) (zlen (gc_addrs c))) as [|NP]; [assumption|exfalso].
      destruct E as [E|E]; apply zget_None in E; lia. }
    destruct (gs_first s) eqn:F.
    + exfalso. destruct (i_ahead c s I F) as (q & Q & _). lia.
    + destruct (i_m2 c s I F) as [_ X]. pose proof (zget_bound _ _ _ GB). apply X; [lia|]. now rewrite (mand_at_Some _ _ _ GB).
Qed.
Lemma run_mand c : gc_addrs c <> [] -> cfg_ok c -> progress_possible c -> mand_first c ->
  forall n s r out, inv c s -> tinv c s -> minv c s -> g_run n c s = GDone r out -> mandatory_everywhere c out.
Proof.
  intros NE OK PP MF. induction n as [|n IH]; intros s r out I TI MI; cbn [g_run]; [discriminate|].
  pose proof (step_minv c s NE OK PP MF I TI MI) as S. pose proof (step_inv c s NE I) as SI.
  destruct (g_step c s) as [s'|r' out'|] eqn:G; [|intros [= <- <-]; exact S|discriminate].
  apply IH; [exact SI|exact (step_tinv _ _ _ OK I TI G)|exact S].
Qed.
Lemma generate_mand c n r out : cfg_ok c -> progress_possible c -> mand_first c -> generate n c = GDone r out -> mandatory_everywhere c out.
Proof.
  intros OK PP MF. unfold generate. destruct (gc_addrs c) as [|a l] eqn:E.
  - intros _ p a f G. rewrite E in G. now apply zget_bound in G as [G1 G2%Z.lt_nge].
  - assert (NE : gc_addrs c <> []) by congruence. apply run_mand; try assumption; [now apply inv_init|apply tinv_init|].
    intros p b f _ _ [].
Qed.
