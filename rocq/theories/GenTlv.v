(** The TLVs of an address block: what _write_addresstlvs writes is, read by
    RFC 5444, what was added to the addresses. *)
From Coq Require Import Permutation Sorted.
From Verif Require Import Base BitsModel BufLemmas SplitLemmas WireSpec WriterProofs GenModel GenSpec GenLoop GenTerm.

Lemma beqb_eq : forall a b, beqb a b = true <-> a = b.
Proof.
  induction a as [|x a IH]; intros [|y b]; cbn [beqb]; try (split; congruence).
  rewrite andb_true_iff, IH, Z.eqb_eq. split; [intros [-> ->]; reflexivity|intros [= -> ->]; auto].
Qed.
Lemma zget_last {A} (l : list A) d : l <> [] -> zget l (zlen l - 1) = Some (List.last l d).
Proof.
  intros NE. destruct (exists_last NE) as (l' & x & ->). rewrite last_last, zlen_app. change (zlen [x]) with 1.
  apply zget_split. lia.
Qed.

Section Block.
Variables (ms : list memb) (base : Z).
Let n := zlen ms.
Definition members_ok : Prop :=
  1 <= n <= 255 /\ NoDup (map mb_pos ms) /\
  (forall k m, zget ms k = Some m -> mb_index m = base + k) /\
  (forall k m m', zget ms k = Some m -> zget ms (k + 1) = Some m' -> mb_prev m' = Some (mb_addr m)) /\
  (forall k m t, zget ms k = Some m -> In t (ga_tlvs (mb_addr m)) -> tlv_ok t) /\
  (forall k k' m m' t t', zget ms k = Some m -> zget ms k' = Some m' -> In t (ga_tlvs (mb_addr m)) -> In t' (ga_tlvs (mb_addr m')) ->
     (gt_id t = gt_id t' <-> kind t = kind t')) /\
  (forall k m, zget ms k = Some m -> NoDup (map kind (ga_tlvs (mb_addr m)))).
Hypothesis MO : members_ok.
Variables (m0 : memb) (rest : list memb).
Hypothesis MS : ms = m0 :: rest.
Let first := mb_pos m0.
Let lastp := mb_pos (List.last ms m0).

Lemma pos_inj k k' m m' : zget ms k = Some m -> zget ms k' = Some m' -> mb_pos m = mb_pos m' -> k = k'.
Proof.
  intros G G' E. destruct MO as (_ & ND & _).
  pose proof (zget_bound _ _ _ G) as B. pose proof (zget_bound _ _ _ G') as B'.
  rewrite NoDup_nth_error in ND. specialize (ND (Z.to_nat k) (Z.to_nat k')).
  unfold zget in G, G'. destruct (Z.ltb_spec k 0), (Z.ltb_spec k' 0); try lia.
  rewrite map_length in ND. unfold zlen in B.
  specialize (ND ltac:(lia)).
  rewrite (map_nth_error mb_pos _ _ G), (map_nth_error mb_pos _ _ G'), E in ND. specialize (ND eq_refl). lia.
Qed.
Lemma get_first : zget ms 0 = Some m0. Proof using MS. now rewrite MS. Qed.
Lemma get_last : zget ms (n - 1) = Some (List.last ms m0).
Proof. apply zget_last. rewrite MS. discriminate. Qed.

(** a run of TLVs for consecutive addresses *)
Fixpoint isrun (a : Z) (l : list cent) : Prop :=
  match l with
  | [] => True
  | c :: r => ce_index c = base + a /\
              (exists m, zget ms a = Some m /\ ce_pos c = mb_pos m /\ In (ce_tlv c) (ga_tlvs (mb_addr m))) /\ isrun (a + 1) r
  end.
Lemma isrun_get : forall l a i c, isrun a l -> zget l i = Some c ->
  ce_index c = base + (a + i) /\ exists m, zget ms (a + i) = Some m /\ ce_pos c = mb_pos m /\ In (ce_tlv c) (ga_tlvs (mb_addr m)).
Proof.
  induction l as [|x l IH]; intros a i c R G; [now apply zget_bound in G as [? ?%Z.lt_nge]|].
  destruct R as (R1 & R2 & R3).
  destruct (Z.eq_dec i 0) as [->|NI].
  - change (zget (x :: l) 0) with (Some x) in G. injection G as <-. rewrite Z.add_0_r. now split.
  - pose proof (zget_bound _ _ _ G) as B.
    change (x :: l) with ([x] ++ l) in G. rewrite zget_app in G. change (zlen [x]) with 1 in G.
    destruct (Z.ltb_spec i 1); [lia|]. specialize (IH _ _ _ R3 G). now replace (a + 1 + (i - 1)) with (a + i) in IH by lia.
Qed.
Lemma isrun_snoc : forall l a c, isrun a l -> isrun (a + zlen l) [c] -> isrun a (l ++ [c]).
Proof.
  induction l as [|x l IH]; intros a c R C; cbn [app].
  - change (zlen []) with 0 in C. now rewrite Z.add_0_r in C.
  - destruct R as (R1 & R2 & R3). split; [exact R1|]. split; [exact R2|]. apply IH; [exact R3|].
    rewrite zlen_cons in C. now replace (a + 1 + zlen l) with (a + (zlen l + 1)) by lia.
Qed.
Lemma isrun_filter : forall l a k, isrun a l ->
  filter (fun c => ce_index c =? base + k) l = match zget l (k - a) with Some c => [c] | None => [] end.
Proof.
  induction l as [|x l IH]; intros a k R.
  - cbn [filter]. destruct (zget [] (k - a)) eqn:G; [|reflexivity]. now apply zget_bound in G as [? ?%Z.lt_nge].
  - destruct R as (R1 & R2 & R3). cbn [filter]. rewrite R1, (IH _ k R3).
    destruct (Z.eqb_spec (base + a) (base + k)) as [E|NE].
    + replace (k - a) with 0 by lia. replace (k - (a + 1)) with (-1) by lia. reflexivity.
    + change (x :: l) with ([x] ++ l). rewrite zget_app. change (zlen [x]) with 1.
      destruct (Z.ltb_spec (k - a) 1).
      * replace (zget l (k - (a + 1))) with (@None cent); [|symmetry; apply zget_None; lia].
        replace (zget [x] (k - a)) with (@None cent); [reflexivity|]. symmetry. apply zget_None. lia.
      * now replace (k - a - 1) with (k - (a + 1)) by lia.
Qed.

Record goodv (v : actv) (a L : Z) : Prop := {
  g_ne : av_list v <> [];
  g_a : 0 <= a;
  g_run : isrun a (av_list v);
  g_len : Forall (fun c => gt_len (ce_tlv c) = L) (av_list v);
  g_id : Forall (fun c => gt_id (ce_tlv c) = av_id v) (av_list v);
  g_same : av_same v = true -> forall c c', In c (av_list v) -> In c' (av_list v) -> gt_value (ce_tlv c) = gt_value (ce_tlv c')
}.
(** what the TLV says about address [k] *)
Definition at_ (v : actv) (k : Z) : list (Z * Z * bytes) :=
  map (fun c => view (ce_tlv c)) (filter (fun c => ce_index c =? base + k) (av_list v)).

Lemma in_zget {A} (l : list A) x : In x l -> exists i, zget l i = Some x.
Proof.
  intros I. apply In_nth_error in I as [i I]. exists (Z.of_nat i). unfold zget.
  destruct (Z.ltb_spec (Z.of_nat i) 0); [lia|]. now rewrite Nat2Z.id.
Qed.

Lemma goodv_kind v a L c c' : goodv v a L -> In c (av_list v) -> In c' (av_list v) -> kind (ce_tlv c) = kind (ce_tlv c').
Proof.
  intros G I I'. destruct MO as (_ & _ & _ & _ & _ & K & _).
  destruct (in_zget _ _ I) as (i & Gi). destruct (in_zget _ _ I') as (i' & Gi').
  destruct (isrun_get _ _ _ _ (g_run _ _ _ G) Gi) as (_ & m & M & _ & T).
  destruct (isrun_get _ _ _ _ (g_run _ _ _ G) Gi') as (_ & m' & M' & _ & T').
  apply (K _ _ _ _ _ _ M M' T T'). pose proof (g_id _ _ _ G) as ID. rewrite Forall_forall in ID. now rewrite (ID _ I), (ID _ I').
Qed.

Lemma flat_values_len L : forall l : list cent, Forall (fun c => gt_len (ce_tlv c) = L) l ->
  zlen (flat_map (fun c => gt_value (ce_tlv c)) l) = L * zlen l.
Proof.
  induction 1 as [|c l H _ IH]; [change (zlen (flat_map _ [])) with 0; change (zlen []) with 0; lia|].
  cbn [flat_map]. rewrite zlen_app, zlen_cons, IH. unfold gt_len in H. lia.
Qed.
Lemma flat_values_get L : forall (l : list cent) i c, Forall (fun c => gt_len (ce_tlv c) = L) l -> zget l i = Some c ->
  firstn (Z.to_nat L) (skipn (Z.to_nat (i * L)) (flat_map (fun c => gt_value (ce_tlv c)) l)) = gt_value (ce_tlv c).
Proof.
  intros l i c F. revert i. induction F as [|x l H F IH]; intros i G; [now apply zget_bound in G as [? ?%Z.lt_nge]|].
  cbn [flat_map]. pose proof (zget_bound _ _ _ G) as B. unfold gt_len, zlen in H.
  destruct (Z.eq_dec i 0) as [->|NI].
  - change (zget (x :: l) 0) with (Some x) in G. injection G as <-. change (0 * L) with 0. change (Z.to_nat 0) with O. cbn [skipn].
    rewrite firstn_app. replace (Z.to_nat L - length (gt_value (ce_tlv x)))%nat with O by lia. cbn [firstn].
    rewrite app_nil_r. apply firstn_all2. lia.
  - change (x :: l) with ([x] ++ l) in G. rewrite zget_app in G. change (zlen [x]) with 1 in G.
    destruct (Z.ltb_spec i 1); [lia|]. rewrite skipn_app.
    rewrite (skipn_all2 (gt_value (ce_tlv x))) by nia. cbn [app].
    replace (Z.to_nat (i * L) - length (gt_value (ce_tlv x)))%nat with (Z.to_nat ((i - 1) * L)) by nia.
    now apply IH.
Qed.

Lemma zlen_firstn_z (l : bytes) k : 0 <= k <= zlen l -> zlen (firstn (Z.to_nat k) l) = k.
Proof. intros H. rewrite zlen_firstn; lia. Qed.

(** one TLV on the wire *)
Lemma write_one v a L b : goodv v a L -> a + zlen (av_list v) <= n ->
  write_addresstlv first lastp base v = Some b -> zlen b < 65536 ->
  exists w, b = enc_tlv w /\ wf_tlv n w /\ forall k, 0 <= k < n -> tlvs_at [w] n k = at_ v k.
Proof.
  intros G END W SZ. unfold write_addresstlv in W.
  destruct (av_list v) as [|c0 r] eqn:AV; [discriminate|].
  set (l := c0 :: r) in *. set (len := zlen l) in *.
  assert (L1 : 1 <= len) by (unfold len, l; rewrite zlen_cons; pose proof (zlen_nonneg r); lia).
  set (cl := List.last l c0) in *. set (t := ce_tlv c0) in *.
  pose proof (g_run _ _ _ G) as RUN. rewrite AV in RUN. fold l in RUN.
  assert (G0 : zget l 0 = Some c0) by reflexivity.
  assert (GL : zget l (len - 1) = Some cl) by (apply zget_last; discriminate).
  destruct (isrun_get _ _ _ _ RUN G0) as (I0 & mf & MF & PF & TF). rewrite Z.add_0_r in I0, MF.
  destruct (isrun_get _ _ _ _ RUN GL) as (IL & ml & ML & PL & TL).
  pose proof MO as (NN & ND & IX & PV & TO & KI & KN).
  assert (I0' : In c0 l) by now left.
  assert (ILst : In cl l) by (unfold cl; destruct (exists_last (l := l)) as (l' & x & E); [discriminate|]; rewrite E, last_last; apply in_or_app; right; now left).
  pose proof (g_len _ _ _ G) as GLN. rewrite AV in GLN. fold l in GLN.
  assert (TL0 : gt_len t = L) by (rewrite Forall_forall in GLN; now apply GLN).
  pose proof (g_same _ _ _ G) as GS. rewrite AV in GS. fold l in GS.
  pose proof (g_a _ _ _ G) as A0.
  assert (TOK : tlv_ok t) by exact (TO _ _ _ MF TF). destruct TOK as (T1 & T2 & T3 & T4).
  assert (L0 : 0 <= L) by (rewrite <- TL0; apply zlen_nonneg).
  (* where it stands *)
  assert (F1 : (ce_pos c0 =? first) = (a =? 0)).
  { destruct (Z.eqb_spec (ce_pos c0) first) as [E|NE], (Z.eqb_spec a 0) as [EA|NA]; try reflexivity; exfalso.
    - apply NA. eapply pos_inj; [exact MF|exact get_first|]. rewrite <- PF. exact E.
    - apply NE. rewrite PF. rewrite EA, get_first in MF. now injection MF as <-. }
  assert (F2 : (ce_pos cl =? lastp) = (a + (len - 1) =? n - 1)).
  { destruct (Z.eqb_spec (ce_pos cl) lastp) as [E|NE], (Z.eqb_spec (a + (len - 1)) (n - 1)) as [EA|NA]; try reflexivity; exfalso.
    - apply NA. eapply pos_inj; [exact ML|exact get_last|]. rewrite <- PL. exact E.
    - apply NE. rewrite PL. rewrite EA, get_last in ML. now injection ML as <-. }
  rewrite F1, F2 in W. clear F1 F2.
  (* the values *)
  set (val := if av_same v then gt_value t else flat_map (fun c => gt_value (ce_tlv c)) l).
  assert (VL : zlen val = if av_same v then L else L * len).
  { unfold val. destruct (av_same v); [exact TL0|]. now apply flat_values_len. }
  assert (VB : all_bytes val).
  { unfold val. destruct (av_same v); [exact T3|]. apply Forall_flat_map. apply Forall_forall. intros c C.
    destruct (in_zget _ _ C) as (i & Gi). destruct (isrun_get _ _ _ _ RUN Gi) as (_ & m & M & _ & T).
    exact (proj1 (proj2 (proj2 (TO _ _ _ M T)))). }
  assert (VE : (if gt_len t >? 0 then if av_same v then gt_value t else flat_map (fun c => gt_value (ce_tlv c)) l else []) = val).
  { fold val. rewrite Z.gtb_ltb. destruct (Z.ltb_spec 0 (gt_len t)); [reflexivity|]. symmetry. apply zlen_zero. rewrite VL.
    destruct (av_same v); nia. }
  rewrite VE in W.
  assert (TOT : (if av_same v then gt_len t else u16 (gt_len t * (ce_index cl - ce_index c0 + 1))) = zlen val).
  { rewrite VL, TL0. destruct (av_same v); [reflexivity|]. rewrite IL, I0.
    replace (base + (a + (len - 1)) - (base + a) + 1) with len by lia. apply u16_id.
    assert (zlen val <= zlen b).
    { destruct (if (a =? 0) && _ then _ else _) as [fi ib]. apply some_inj in W; subst b. rewrite !zlen_app.
      match goal with |- _ <= ?x + (?y + (?z + (?u + (?w + _)))) => pose proof (zlen_nonneg [gt_type t]); assert (0 <= x + (y + (z + (u + w)))) end;
        [|lia]. repeat apply Z.add_nonneg_nonneg; apply zlen_nonneg. }
    unfold is_u16. nia. }
  rewrite TOT in W.
  set (w := {| w_type := gt_type t; w_ext := if gt_ext t =? 0 then None else Some (gt_ext t);
               w_index := if (a =? 0) && (a + (len - 1) =? n - 1) then WAll else if len =? 1 then WOne a else WRange a (a + (len - 1));
               w_long := zlen val >? 255; w_value := if zlen val >? 0 then Some val else None; w_multi := negb (av_same v) |}).
  assert (VBW : value_bytes w = val).
  { unfold value_bytes, w; cbn [w_value]. rewrite Z.gtb_ltb. destruct (Z.ltb_spec 0 (zlen val)); [reflexivity|].
    symmetry. apply zlen_zero. pose proof (zlen_nonneg val). lia. }
  assert (V64 : zlen val < 65536).
  { rewrite VL. destruct (av_same v); [rewrite <- TL0; exact T4|]. rewrite VL in TOT. pose proof (u16_range (gt_len t * (ce_index cl - ce_index c0 + 1))) as U.
    unfold is_u16 in U. lia. }
  assert (FW : first_index w = a).
  { unfold first_index, w; cbn [w_index]. destruct (Z.eqb_spec a 0), (Z.eqb_spec (a + (len - 1)) (n - 1)); cbn [andb]; try lia; now destruct (len =? 1). }
  assert (LW : last_index n w = a + (len - 1)).
  { unfold last_index, w; cbn [w_index]. destruct (Z.eqb_spec a 0), (Z.eqb_spec (a + (len - 1)) (n - 1)); cbn [andb]; try lia; destruct (Z.eqb_spec len 1); lia. }
  assert (VN : values n w = if av_same v then 1 else len).
  { unfold values. rewrite FW, LW. unfold w; cbn [w_multi]. destruct (av_same v); cbn [negb]; lia. }
  exists w. split; [|split].
  - (* the bytes *)
    assert (E2 : (ce_index c0 =? ce_index cl) = (len =? 1)).
    { rewrite I0, IL. destruct (Z.eqb_spec (base + a) (base + (a + (len - 1)))), (Z.eqb_spec len 1); lia. }
    rewrite E2 in W. rewrite I0, IL in W.
    replace (base + a - base) with a in W by lia. replace (base + (a + (len - 1)) - base) with (a + (len - 1)) in W by lia.
    rewrite (u8_id a) in W by (unfold is_u8; lia). rewrite (u8_id (a + (len - 1))) in W by (unfold is_u8; lia).
    unfold enc_tlv, tlv_flags. unfold w; cbn [w_type w_ext w_index w_long w_value w_multi]. fold val.
    assert (BE : be16 (zlen val) = [zlen val / 256; Z.land (zlen val) 255]).
    { unfold be16. now rewrite land255. }
    assert (LA : zlen val <= 255 -> Z.land (zlen val) 255 = zlen val).
    { intros H. rewrite land255. apply Z.mod_small. pose proof (zlen_nonneg val). lia. }
    rewrite !Z.gtb_ltb in *. pose proof (zlen_nonneg val) as VNN.
    destruct (Z.ltb_spec 255 (zlen val)) as [HV|HV].
    + destruct (Z.ltb_spec 0 (zlen val)) as [HZ|HZ]; [|lia].
      rewrite BE. destruct (gt_ext t =? 0), ((a =? 0) && (a + (len - 1) =? n - 1)), (len =? 1), (av_same v); apply some_inj in W; subst b; reflexivity.
    + destruct (Z.ltb_spec 0 (zlen val)) as [HZ|HZ].
      * rewrite (LA HV) in W.
        destruct (gt_ext t =? 0), ((a =? 0) && (a + (len - 1) =? n - 1)), (len =? 1), (av_same v); apply some_inj in W; subst b; reflexivity.
      * assert (VN0 : val = []) by (apply zlen_zero; lia). rewrite VN0 in W.
        destruct (gt_ext t =? 0), ((a =? 0) && (a + (len - 1) =? n - 1)), (len =? 1), (av_same v); apply some_inj in W; subst b; reflexivity.
  - (* well-formed *)
    unfold wf_tlv. rewrite VBW, FW, LW, VN. split; [exact T1|]. split.
    { intros x. unfold w; cbn [w_ext]. destruct (gt_ext t =? 0); [discriminate|]. intros [= <-]. exact T2. }
    split; [exact VB|]. split.
    { unfold w; cbn [w_long]. rewrite Z.gtb_ltb. destruct (Z.ltb_spec 255 (zlen val)); lia. }
    destruct (Z.eqb_spec n 0); [lia|]. split; [lia|]. split; [lia|]. rewrite VL. destruct (av_same v); [apply Z.mod_1_r|].
    apply Z.mod_mul. lia.
  - (* what it says *)
    intros k K. unfold at_. rewrite AV. fold l. rewrite (isrun_filter _ _ k RUN). unfold tlvs_at. cbn [filter].
    unfold concernsb. rewrite FW, LW.
    destruct (zget l (k - a)) as [c|] eqn:GK.
    + pose proof (zget_bound _ _ _ GK) as BK. fold len in BK.
      destruct (Z.leb_spec a k), (Z.leb_spec k (a + (len - 1))); try lia. cbn [andb map]. change (w_type w) with (gt_type t). change (w_ext w) with (if gt_ext t =? 0 then None else Some (gt_ext t)).
      assert (IC : In c l). { unfold zget in GK. destruct (k - a <? 0); [discriminate|]. eapply nth_error_In, GK. }
      assert (KC : kind t = kind (ce_tlv c)).
      { eapply (goodv_kind v a L c0 c G); rewrite AV; assumption. }
      unfold kind in KC. injection KC as K1 K2. unfold view. rewrite <- K1, <- K2. f_equal. f_equal.
      * f_equal. destruct (Z.eqb_spec (gt_ext t) 0) as [->|]; reflexivity.
      * unfold value_at. rewrite VBW, VN, FW. unfold w; cbn [w_multi].
        destruct (av_same v) eqn:SV; cbn [negb].
        -- unfold val. apply GS; [reflexivity|assumption|assumption].
        -- rewrite VL. rewrite Z.div_mul by lia. unfold val. now apply flat_values_get.
    + apply zget_None in GK. fold len in GK.
      destruct (Z.leb_spec a k), (Z.leb_spec k (a + (len - 1))); try lia; reflexivity.
Qed.

Lemma write_total v a L : goodv v a L -> exists b, write_addresstlv first lastp base v = Some b.
Proof.
  intros G. unfold write_addresstlv. pose proof (g_ne _ _ _ G) as NE. destruct (av_list v) as [|c0 r]; [congruence|].
  destruct (if _ && _ then _ else _) as [fi ib]. eexists. reflexivity.
Qed.

(** ** The loop *)
(** the tlvtypes on the way: written so far, and still open *)
Definition says_at (ws : list wtlv) (act : list actv) (k : Z) : list (Z * Z * bytes) :=
  tlvs_at ws n k ++ flat_map (fun v => at_ v k) act.
Record linv (j : Z) (done : list gtlv) (act : list actv) (out : bytes) : Prop := {
  l_act : Forall (fun v => exists a L, goodv v a L /\ a + zlen (av_list v) <= j + 1) act;
  l_out : zlen out < 65536 -> exists ws, out = flat_map enc_tlv ws /\ Forall (wf_tlv n) ws /\
     (forall k m, 0 <= k < j -> zget ms k = Some m -> Permutation (says_at ws act k) (map view (ga_tlvs (mb_addr m)))) /\
     (j < n -> Permutation (says_at ws act j) (map view done)) /\
     (forall k, j < k < n -> says_at ws act k = [])
}.

Lemma find_split act id v : find_act act id = Some v -> exists l1 l2, act = l1 ++ v :: l2 /\ av_id v = id /\
  forall v', av_id v' = id -> put_act act v' = l1 ++ v' :: l2.
Proof.
  induction act as [|x act IH]; cbn [find_act]; [discriminate|]. destruct (Z.eqb_spec (av_id x) id) as [E|NE].
  - intros [= <-]. exists [], act. split; [reflexivity|]. split; [exact E|]. intros v' E'. cbn [put_act app]. rewrite E, E', Z.eqb_refl. reflexivity.
  - intros H. destruct (IH H) as (l1 & l2 & -> & I & P). exists (x :: l1), l2. split; [reflexivity|]. split; [exact I|].
    intros v' E'. cbn [put_act app]. rewrite E'. destruct (Z.eqb_spec (av_id x) id); [congruence|]. now rewrite P.
Qed.
Lemma tlvs_at_app a b k : tlvs_at (a ++ b) n k = tlvs_at a n k ++ tlvs_at b n k.
Proof. unfold tlvs_at. now rewrite filter_app, map_app. Qed.
Lemma at_single id pos k t same j : at_ (Actv id [Cent pos (base + j) t] same) k = if j =? k then [view t] else [].
Proof.
  unfold at_. cbn [av_list filter ce_index]. destruct (Z.eqb_spec (base + j) (base + k)), (Z.eqb_spec j k); try lia; reflexivity.
Qed.
Lemma at_snoc v pos t same j k : at_ (Actv (av_id v) (av_list v ++ [Cent pos (base + j) t]) same) k = at_ v k ++ (if j =? k then [view t] else []).
Proof.
  unfold at_. cbn [av_list]. rewrite filter_app, map_app. f_equal. cbn [filter ce_index].
  destruct (Z.eqb_spec (base + j) (base + k)), (Z.eqb_spec j k); try lia; reflexivity.
Qed.

Lemma one_tlv_inv j m t done act out act' out' pp pr :
  zget ms j = Some m -> In t (ga_tlvs (mb_addr m)) -> (forall t', In t' done -> In t' (ga_tlvs (mb_addr m))) ->
  pr = mb_prev m -> (pp = None /\ j = 0 \/ exists mp, zget ms (j - 1) = Some mp /\ pp = Some (mb_pos mp)) ->
  one_tlv first lastp base pp (Cent (mb_pos m) (base + j) t) (snd (same_of pr t)) act out = Some (act', out') ->
  linv j done act out -> linv j (done ++ [t]) act' out' /\ zlen out <= zlen out'.
Proof.
  intros GM IT _ PR PP O LI. pose proof (zget_bound _ _ _ GM) as BJ. fold n in BJ.
  assert (PERM : forall (a b : list (Z*Z*bytes)) x, Permutation (a ++ b) (map view done) -> Permutation (a ++ (b ++ [view x])) (map view (done ++ [x]))).
  { intros a b x P. rewrite app_assoc, map_app. now apply Permutation_app_tail. }
  unfold one_tlv in O. cbn [ce_tlv] in O.
  assert (SING : goodv (Actv (gt_id t) [Cent (mb_pos m) (base + j) t] true) j (gt_len t)).
  { constructor; cbn [av_list av_id av_same]; try lia.
    - discriminate.
    - cbn [isrun ce_index ce_pos ce_tlv]. split; [reflexivity|]. split; [now exists m|exact Logic.I].
    - constructor; [reflexivity|constructor].
    - constructor; [reflexivity|constructor].
    - intros _ c c' [<-|[]] [<-|[]]. reflexivity. }
  destruct (find_act act (gt_id t)) as [v|] eqn:FA.
  - destruct (find_split _ _ _ FA) as (l1 & l2 & -> & ID & PUT).
    pose proof (l_act _ _ _ _ LI) as LA. apply Forall_app in LA as [LA1 LA2]. inversion LA2 as [|? ? LV LA3]; subst.
    destruct LV as (a & L & GV & GE).
    destruct (av_list v) as [|c0 r] eqn:AV; [discriminate|].
    set (cl := List.last (c0 :: r) c0) in *.
    destruct (_ || _) eqn:BRK.
    + (* written, a new one begins *)
      destruct (write_total _ _ _ GV) as (b & WB). rewrite WB in O. injection O as <- <-.
      rewrite PUT by reflexivity. split; [|rewrite zlen_app; pose proof (zlen_nonneg b); lia].
      split.
      * apply Forall_app. split; [exact LA1|]. constructor; [|exact LA3]. exists j, (gt_len t). split; [exact SING|].
        cbn [av_list]. change (zlen [_]) with 1. lia.
      * rewrite zlen_app. intros SZ. pose proof (zlen_nonneg b). pose proof (zlen_nonneg out).
        destruct (l_out _ _ _ _ LI ltac:(lia)) as (ws & E & WF & P1 & P2 & P3).
        destruct (write_one v a L b GV ltac:(rewrite AV; lia) WB ltac:(lia)) as (w & EB & WW & SAY).
        exists (ws ++ [w]). split; [rewrite flat_map_app, <- E; cbn [flat_map]; now rewrite app_nil_r, EB|].
        split; [apply Forall_app; split; [exact WF|now constructor]|].
        assert (CH : forall k, 0 <= k < n ->
          Permutation (says_at (ws ++ [w]) (l1 ++ Actv (gt_id t) [Cent (mb_pos m) (base + j) t] true :: l2) k)
            (says_at ws (l1 ++ v :: l2) k ++ (if j =? k then [view t] else []))).
        { intros k K. unfold says_at. rewrite tlvs_at_app, (SAY k K), !flat_map_app. cbn [flat_map]. rewrite at_single.
          set (x := if j =? k then _ else _). rewrite <- !app_assoc. apply Permutation_app_head.
          etransitivity; [apply Permutation_app_swap_app|]. do 2 apply Permutation_app_head. apply Permutation_app_comm. }
        split; [|split].
        -- intros k m' K GK. rewrite (CH k ltac:(lia)). destruct (Z.eqb_spec j k); [lia|]. rewrite app_nil_r. now apply P1.
        -- intros _. rewrite (CH j ltac:(lia)), Z.eqb_refl. rewrite map_app. apply Permutation_app_tail, P2. lia.
        -- intros k K. apply Permutation_nil. symmetry. rewrite (CH k ltac:(lia)). destruct (Z.eqb_spec j k); [lia|].
           rewrite P3 by lia. reflexivity.
    + (* it goes on *)
      injection O as <- <-. apply orb_false_iff in BRK as [B1 B2].
      apply negb_false_iff in B1, B2. apply Z.eqb_eq in B2.
      destruct PP as [[-> _]|(mp & GP & ->)]; [discriminate|]. apply Z.eqb_eq in B1.
      pose proof (g_run _ _ _ GV) as RUN.
      assert (GL : zget (av_list v) (zlen (av_list v) - 1) = Some cl).
      { rewrite AV. apply zget_last. discriminate. }
      destruct (isrun_get _ _ _ _ RUN GL) as (IL & ml & ML & PL & TL).
      assert (EJ : a + zlen (av_list v) = j).
      { assert (a + (zlen (av_list v) - 1) = j - 1); [|lia]. eapply pos_inj; [exact ML|exact GP|]. congruence. }
      assert (ICL : In cl (av_list v)) by (unfold zget in GL; destruct (_ <? 0); [discriminate|]; eapply nth_error_In, GL).
      pose proof (g_len _ _ _ GV) as GLN. pose proof (g_id _ _ _ GV) as GID.
      assert (LC : gt_len (ce_tlv cl) = L) by (rewrite Forall_forall in GLN; now apply GLN).
      assert (IDC : gt_id (ce_tlv cl) = gt_id t) by (rewrite Forall_forall in GID; rewrite (GID _ ICL); exact ID).
      replace (a + (zlen (av_list v) - 1)) with (j - 1) in ML by lia. rewrite GP in ML. injection ML as <-.
      pose proof MO as (NN & ND & IX & PV & TO & KI & KN).
      assert (PRV : mb_prev m = Some (mb_addr mp)) by (apply (PV (j - 1) mp m GP); now replace (j - 1 + 1) with j by lia).
      rewrite PRV.
      assert (SAME : snd (same_of (Some (mb_addr mp)) t) = true -> gt_value t = gt_value (ce_tlv cl)).
      { unfold same_of. destruct (find _ _) as [l|] eqn:FD; [|discriminate].
        apply find_some in FD as [FI FE]. apply Z.eqb_eq in FE.
        pose proof (TO _ _ _ GP FI) as (TA & TB & _). pose proof (TO _ _ _ GM IT) as (TC & TD & _). unfold is_u8 in *.
        assert (KL : kind l = kind t) by (unfold kind, gt_full in *; f_equal; lia).
        assert (KC : kind (ce_tlv cl) = kind t) by (apply (KI _ _ _ _ _ _ GP GM TL IT); exact IDC).
        assert (l = ce_tlv cl).
        { pose proof (KN _ _ GP) as N. clear - N FI TL KL KC. rewrite <- KC in KL. clear KC.
          induction (ga_tlvs (mb_addr mp)) as [|x xs IHx]; [destruct FI|]. inversion N as [|? ? NI N']; subst.
          destruct FI as [->|FI], TL as [EQ|TL].
          - exact EQ.
          - exfalso. apply NI. rewrite KL. now apply in_map.
          - exfalso. apply NI. rewrite EQ, <- KL. now apply in_map.
          - now apply IHx. }
        subst l. destruct (_ =? _); [|discriminate]. cbn [snd]. intros Hb. now apply beqb_eq in Hb. }
      split; [|lia]. cbn [av_list av_id] in *.
      change (c0 :: r) with (c0 :: r). rewrite PUT by reflexivity.
      assert (NEW : goodv (Actv (gt_id t) ((c0 :: r) ++ [Cent (mb_pos m) (base + j) t]) (av_same v && snd (same_of (Some (mb_addr mp)) t))) a L).
      { rewrite <- AV. constructor; cbn [av_list av_id av_same].
        - intros E. now apply app_eq_nil in E.
        - exact (g_a _ _ _ GV).
        - apply isrun_snoc; [exact RUN|]. cbn [isrun ce_index ce_pos ce_tlv]. rewrite EJ. split; [reflexivity|]. split; [now exists m|exact Logic.I].
        - apply Forall_app. split; [exact GLN|]. constructor; [|constructor]. cbn [ce_tlv]. rewrite <- B2. exact LC.
        - apply Forall_app. split; [rewrite <- ID; exact GID|]. constructor; [reflexivity|constructor].
        - intros S. apply andb_true_iff in S as [S1 S2]. specialize (SAME S2). pose proof (g_same _ _ _ GV S1) as GS.
          intros c c' C C'. apply in_app_or in C, C'. destruct C as [C|[<-|[]]], C' as [C'|[<-|[]]]; cbn [ce_tlv]; try rewrite SAME; auto. }
      split.
      * apply Forall_app. split; [exact LA1|]. constructor; [|exact LA3]. exists a, L. split; [exact NEW|]. cbn [av_list].
        match goal with |- context [zlen (c0 :: r ++ ?x)] => change (c0 :: r ++ x) with ((c0 :: r) ++ x) end.
        rewrite zlen_app, <- AV. change (zlen [_]) with 1. lia.
      * intros SZ. destruct (l_out _ _ _ _ LI SZ) as (ws & E & WF & P1 & P2 & P3).
        exists ws. split; [exact E|]. split; [exact WF|].
        assert (CH : forall k, Permutation (says_at ws (l1 ++ Actv (gt_id t) ((c0 :: r) ++ [Cent (mb_pos m) (base + j) t]) (av_same v && snd (same_of (Some (mb_addr mp)) t)) :: l2) k)
            (says_at ws (l1 ++ v :: l2) k ++ (if j =? k then [view t] else []))).
        { intros k. unfold says_at. rewrite !flat_map_app. cbn [flat_map]. rewrite <- AV, <- ID, at_snoc.
          set (x := if j =? k then _ else _). rewrite <- !app_assoc. do 3 apply Permutation_app_head. apply Permutation_app_comm. }
        split; [|split].
        -- intros k m' K GK. rewrite (CH k). destruct (Z.eqb_spec j k); [lia|]. rewrite app_nil_r. now apply P1.
        -- intros _. rewrite (CH j), Z.eqb_refl. rewrite map_app. apply Permutation_app_tail, P2. lia.
        -- intros k K. apply Permutation_nil. symmetry. rewrite (CH k). destruct (Z.eqb_spec j k); [lia|].
           rewrite P3 by lia. reflexivity.
  - (* a new tlvtype *)
    injection O as <- <-. split; [|lia]. split.
    + apply Forall_app. split; [exact (l_act _ _ _ _ LI)|]. constructor; [|constructor]. exists j, (gt_len t). split; [exact SING|].
      cbn [av_list]. change (zlen [_]) with 1. lia.
    + intros SZ. destruct (l_out _ _ _ _ LI SZ) as (ws & E & WF & P1 & P2 & P3).
      exists ws. split; [exact E|]. split; [exact WF|].
      assert (CH : forall k, says_at ws (act ++ [Actv (gt_id t) [Cent (mb_pos m) (base + j) t] true]) k = says_at ws act k ++ (if j =? k then [view t] else [])).
      { intros k. unfold says_at. rewrite flat_map_app. cbn [flat_map]. rewrite at_single, app_nil_r. now rewrite app_assoc. }
      split; [|split].
      * intros k m' K GK. rewrite (CH k). destruct (Z.eqb_spec j k); [lia|]. rewrite app_nil_r. now apply P1.
      * intros _. rewrite (CH j), Z.eqb_refl. rewrite map_app. apply Permutation_app_tail, P2. lia.
      * intros k K. rewrite (CH k). destruct (Z.eqb_spec j k); [lia|]. now rewrite P3, app_nil_r by lia.
Qed.

Lemma addr_tlvs_inv j m pp : zget ms j = Some m -> (pp = None /\ j = 0 \/ exists mp, zget ms (j - 1) = Some mp /\ pp = Some (mb_pos mp)) ->
  forall ts done act out act' out', (forall t, In t ts -> In t (ga_tlvs (mb_addr m))) -> (forall t, In t done -> In t (ga_tlvs (mb_addr m))) ->
  addr_tlvs first lastp base pp (mb_pos m) (base + j) (mb_prev m) ts act out = Some (act', out') ->
  linv j done act out -> linv j (done ++ ts) act' out' /\ zlen out <= zlen out'.
Proof.
  intros GM PP. induction ts as [|t ts IH]; intros done act out act' out' IN ID; cbn [addr_tlvs].
  - intros [= <- <-] LI. rewrite app_nil_r. split; [exact LI|lia].
  - destruct (one_tlv _ _ _ _ _ _ _ _) as [[act1 out1]|] eqn:O; [|discriminate]. intros H LI.
    destruct (one_tlv_inv j m t done act out act1 out1 pp (mb_prev m) GM (IN t (or_introl eq_refl)) ID eq_refl PP O LI) as [LI1 LE1].
    assert (ID1 : forall t', In t' (done ++ [t]) -> In t' (ga_tlvs (mb_addr m))).
    { intros t' T. apply in_app_or in T as [T|[<-|[]]]; [now apply ID|apply IN; now left]. }
    destruct (IH (done ++ [t]) act1 out1 act' out' (fun t' T => IN t' (or_intror T)) ID1 H LI1) as [LI2 LE2].
    rewrite <- app_assoc in LI2. split; [exact LI2|lia].
Qed.

Lemma next_inv j m act out : zget ms j = Some m -> linv j (ga_tlvs (mb_addr m)) act out -> linv (j + 1) [] act out.
Proof.
  intros GM [A B]. pose proof (zget_bound _ _ _ GM) as BJ. fold n in BJ. split.
  - eapply Forall_impl; [|exact A]. cbn. intros v (a & L & G & E). exists a, L. split; [exact G|lia].
  - intros SZ. destruct (B SZ) as (ws & E & WF & P1 & P2 & P3). exists ws. split; [exact E|]. split; [exact WF|]. split; [|split].
    + intros k m' K GK. destruct (Z.eq_dec k j) as [->|]; [|apply P1; [lia|exact GK]]. rewrite GM in GK. injection GK as <-. now apply P2.
    + intros LN. rewrite P3 by lia. constructor.
    + intros k K. apply P3. lia.
Qed.

(** ** No fault *)
Lemma one_tlv_total j done act out pp c same : linv j done act out ->
  exists r, one_tlv first lastp base pp c same act out = Some r.
Proof.
  intros LI. unfold one_tlv. destruct (find_act act (gt_id (ce_tlv c))) as [v|] eqn:FA; [|eexists; reflexivity].
  destruct (find_split _ _ _ FA) as (l1 & l2 & -> & _ & _).
  pose proof (l_act _ _ _ _ LI) as LA. apply Forall_app in LA as [_ LA]. inversion LA as [|? ? (a & L & G & _) _]; subst.
  pose proof (g_ne _ _ _ G) as NE. destruct (av_list v) as [|c0 r] eqn:AV; [congruence|].
  destruct (_ || _); [|eexists; reflexivity]. destruct (write_total _ _ _ G) as (b & ->). eexists. reflexivity.
Qed.
Lemma addr_tlvs_total j m pp : zget ms j = Some m -> (pp = None /\ j = 0 \/ exists mp, zget ms (j - 1) = Some mp /\ pp = Some (mb_pos mp)) ->
  forall ts done act out, (forall t, In t ts -> In t (ga_tlvs (mb_addr m))) -> (forall t, In t done -> In t (ga_tlvs (mb_addr m))) ->
  linv j done act out -> exists r, addr_tlvs first lastp base pp (mb_pos m) (base + j) (mb_prev m) ts act out = Some r.
Proof.
  intros GM PP. induction ts as [|t ts IH]; intros done act out IN ID LI; cbn [addr_tlvs]; [eexists; reflexivity|].
  destruct (one_tlv_total j done act out pp (Cent (mb_pos m) (base + j) t) (snd (same_of (mb_prev m) t)) LI) as ([act1 out1] & O).
  rewrite O. destruct (one_tlv_inv j m t done act out act1 out1 pp (mb_prev m) GM (IN t (or_introl eq_refl)) ID eq_refl PP O LI) as [LI1 _].
  apply (IH (done ++ [t])); [intros; apply IN; now right| |exact LI1].
  intros t' T. apply in_app_or in T as [T|[<-|[]]]; [now apply ID|apply IN; now left].
Qed.

(** ** All addresses *)
Lemma block_inv : forall ms' pre pp act out, ms = pre ++ ms' ->
  (pp = None /\ zlen pre = 0 \/ exists mp, zget ms (zlen pre - 1) = Some mp /\ pp = Some (mb_pos mp)) ->
  linv (zlen pre) [] act out ->
  exists act' out', block_tlvs first lastp base pp ms' act out = Some (act', out') /\ linv n [] act' out'.
Proof.
  induction ms' as [|m ms' IH]; intros pre pp act out E PP LI; cbn [block_tlvs].
  - exists act, out. split; [reflexivity|]. rewrite app_nil_r in E. unfold n. now rewrite E.
  - assert (GM : zget ms (zlen pre) = Some m) by (rewrite E; now apply zget_split).
    pose proof MO as (NN & ND & IX & _). rewrite (IX _ _ GM).
    destruct (addr_tlvs_total _ _ pp GM PP (ga_tlvs (mb_addr m)) [] act out (fun t T => T) (fun t (T : In t []) => match T with end) LI) as ([act1 out1] & A).
    rewrite A. destruct (addr_tlvs_inv _ _ pp GM PP _ [] _ _ _ _ (fun t T => T) (fun t (T : In t []) => match T with end) A LI) as [LI1 _].
    cbn [app] in LI1. apply (next_inv _ _ _ _ GM) in LI1.
    assert (ZP : zlen (pre ++ [m]) = zlen pre + 1) by (rewrite zlen_app; reflexivity).
    destruct (IH (pre ++ [m]) (Some (mb_pos m)) act1 out1) as (act' & out' & B & L').
    + now rewrite <- app_assoc.
    + right. exists m. rewrite ZP. replace (zlen pre + 1 - 1) with (zlen pre) by lia. now split.
    + now rewrite ZP.
    + exists act', out'. now split.
Qed.

Lemma active_written act : Forall (fun v => exists a L, goodv v a L /\ a + zlen (av_list v) <= n) act ->
  exists r, write_active first lastp base act = Some r /\
    (zlen r < 65536 -> exists ws, r = flat_map enc_tlv ws /\ Forall (wf_tlv n) ws /\
       forall k, 0 <= k < n -> tlvs_at ws n k = flat_map (fun v => at_ v k) act).
Proof.
  induction 1 as [|v act (a & L & G & E) _ (r & R & IH)].
  - exists []. split; [reflexivity|]. intros _. exists []. repeat split; constructor.
  - destruct (write_total _ _ _ G) as (b & B). cbn [write_active]. rewrite B, R. exists (b ++ r). split; [reflexivity|].
    rewrite zlen_app. pose proof (zlen_nonneg b). pose proof (zlen_nonneg r). intros SZ.
    destruct (IH ltac:(lia)) as (ws & -> & WF & T).
    destruct (write_one v a L b G E B ltac:(lia)) as (w & -> & WW & SAY). exists (w :: ws).
    split; [reflexivity|]. split; [now constructor|]. intros k K. cbn [flat_map].
    change (w :: ws) with ([w] ++ ws). rewrite tlvs_at_app, (SAY k K), (T k K). reflexivity.
Qed.

Lemma tlvs_written : exists b, write_addresstlvs ms = Some b /\
  (zlen b < 65536 -> exists ws, b = flat_map enc_tlv ws /\ Forall (wf_tlv n) ws /\
     forall k m, zget ms k = Some m -> Permutation (tlvs_at ws n k) (map view (ga_tlvs (mb_addr m)))).
Proof.
  pose proof MO as (NN & ND & IX & _). pose proof (IX _ _ get_first) as I0. rewrite Z.add_0_r in I0.
  assert (LI : linv 0 [] [] []).
  { split; [constructor|]. intros _. exists []. split; [reflexivity|]. split; [constructor|]. split; [intros; lia|]. split; [intros _; constructor|reflexivity]. }
  destruct (block_inv ms [] None [] [] eq_refl (or_introl (conj eq_refl eq_refl)) LI) as (act & out & B & [LA LO]).
  assert (LA' : Forall (fun v => exists a L, goodv v a L /\ a + zlen (av_list v) <= n) act).
  { eapply Forall_impl; [|exact LA]. cbn. intros v (a & L & G & E). exists a, L. split; [exact G|].
    pose proof (g_run _ _ _ G) as RUN. pose proof (g_ne _ _ _ G) as NE.
    destruct (av_list v) as [|c0 r] eqn:AV; [congruence|].
    destruct (isrun_get _ _ _ _ RUN (zget_last (c0 :: r) c0 ltac:(discriminate))) as (_ & m & M & _).
    apply zget_bound in M. fold n in M. lia. }
  destruct (active_written act LA') as (r & R & IH).
  exists (out ++ r). split.
  - unfold write_addresstlvs. rewrite MS. rewrite <- MS. rewrite I0. fold first lastp. rewrite B, R. reflexivity.
  - rewrite zlen_app. pose proof (zlen_nonneg out). pose proof (zlen_nonneg r). intros SZ.
    destruct (LO ltac:(lia)) as (ws & -> & WF & P1 & _ & _). destruct (IH ltac:(lia)) as (ws' & -> & WF' & T).
    exists (ws ++ ws'). split; [now rewrite flat_map_app|]. split; [now apply Forall_app|].
    intros k m G. pose proof (zget_bound _ _ _ G) as BK. fold n in BK. rewrite tlvs_at_app, (T k BK). now apply (P1 k m).
Qed.
End Block.
