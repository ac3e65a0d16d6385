(** The address blocks chosen by the compression: every message says what was
    added to its addresses. *)
From Coq Require Import Permutation Sorted.
From Verif Require Import Base BitsModel BufLemmas SplitLemmas WireSpec WriterProofs GenModel GenSpec GenLoop GenTerm GenTlv GenBlock.

(** ** Lists *)
Lemma zget_In {A} (l : list A) i x : zget l i = Some x -> In x l.
Proof. unfold zget. destruct (i <? 0); [discriminate|]. apply nth_error_In. Qed.
Lemma In_zget {A} (l : list A) x : In x l -> exists i, zget l i = Some x.
Proof.
  intros I. apply In_nth_error in I as [i I]. exists (Z.of_nat i). unfold zget.
  destruct (Z.ltb_spec (Z.of_nat i) 0); [lia|]. now rewrite Nat2Z.id.
Qed.
Lemma before_split : forall l1 p s l2, NoDup (l1 ++ p :: s :: l2) -> before (l1 ++ p :: s :: l2) s = Some p.
Proof.
  induction l1 as [|x l1 IH]; intros p s l2 N.
  - cbn [app before]. now rewrite Z.eqb_refl.
  - destruct l1 as [|y l1'].
    + cbn [app before] in *. destruct (Z.eqb_spec p s) as [E|_]; [|now rewrite Z.eqb_refl].
      subst. inversion N as [|? ? _ N']; inversion N' as [|? ? NI _]; subst. exfalso. apply NI. now left.
    + change (before ((x :: y :: l1') ++ p :: s :: l2) s) with (if y =? s then Some x else before ((y :: l1') ++ p :: s :: l2) s).
      destruct (Z.eqb_spec y s) as [->|_].
      * inversion N as [|? ? _ N']; subst. cbn [app] in N'. inversion N' as [|? ? NI _]; subst. exfalso. apply NI.
        apply in_or_app. right. right. now left.
      * apply IH. now inversion N.
Qed.
Lemma upto_split : forall l1 e l2, ~ In e l1 -> upto (l1 ++ e :: l2) e = Some (l1 ++ [e], l2).
Proof.
  induction l1 as [|x l1 IH]; intros e l2 NI; cbn [app upto].
  - now rewrite Z.eqb_refl.
  - destruct (Z.eqb_spec x e) as [->|_]; [exfalso; apply NI; now left|]. rewrite IH; [reflexivity|]. intros I. apply NI. now right.
Qed.
Lemma upto_block pre e sb rest : sb = pre ++ [e] -> NoDup (sb ++ rest) -> upto (sb ++ rest) e = Some (sb, rest).
Proof.
  intros -> ND. rewrite <- app_assoc in *. cbn [app] in *. apply upto_split. intros I.
  apply NoDup_remove_2 in ND. apply ND. apply in_or_app. now left.
Qed.
Lemma last_snoc {A} (l : list A) d : l <> [] -> exists l', l = l' ++ [List.last l d].
Proof. intros NE. destruct (exists_last NE) as (l' & x & ->). exists l'. now rewrite last_last. Qed.
Lemma snoc_split {A} (cur : list A) pos l1 p l2 : cur ++ [pos] = l1 ++ p :: l2 -> l2 <> [] -> exists l2', l2 = l2' ++ [pos] /\ cur = l1 ++ p :: l2'.
Proof.
  intros E NE. destruct (exists_last NE) as (l2' & x & ->). exists l2'.
  change (l1 ++ p :: l2' ++ [x]) with (l1 ++ (p :: l2') ++ [x]) in E. rewrite app_assoc in E.
  apply app_inj_tail in E as [-> ->]. now split.
Qed.
Lemma snoc_split_last {A} (cur : list A) pos l1 p : cur ++ [pos] = l1 ++ [p] -> cur = l1 /\ pos = p.
Proof. intros E. now apply app_inj_tail in E. Qed.

Section Chain.
Variable c : gcfg.
Hypothesis OK : cfg_ok c.
Hypothesis DI : distinct c.
Hypothesis PT : plain_tlvs c.
Hypothesis FEW : zlen (gc_addrs c) <= 255.
Let al := gc_al c.
Let addrs := gc_addrs c.

Lemma al_range : 1 <= al <= 16. Proof. apply OK. Qed.
Lemma addr_get p a : zget addrs p = Some a -> addr_ok al a.
Proof. intros G. destruct OK as (_ & F & _). rewrite Forall_forall in F. apply F. eapply zget_In, G. Qed.

(** ** Blocks *)
(** these addresses share [h] bytes, and the prefix length unless [m] *)
Definition gb (h : Z) (m : bool) (blk : list Z) : Prop :=
  forall p q a b, In p blk -> In q blk -> zget addrs p = Some a -> zget addrs q = Some b ->
    firstn (Z.to_nat h) (ga_bytes a) = firstn (Z.to_nat h) (ga_bytes b) /\ (m = false -> ga_plen a = ga_plen b).
(** a block may stand at the end of [l] *)
Definition vb (l : list Z) (st : option Z) (h : Z) (m : bool) : Prop :=
  0 <= h < al /\ exists l1 s blk, l = l1 ++ s :: blk /\ st = Some s /\ gb h m (s :: blk).

Lemma gb_single h m p : gb h m [p].
Proof. intros x y a b [<-|[]] [<-|[]] G G'. rewrite G in G'. injection G' as <-. now split. Qed.
Lemma vb_single l p h m : 0 <= h < al -> vb (l ++ [p]) (Some p) h m.
Proof. intros H. split; [exact H|]. exists l, p, []. split; [reflexivity|]. split; [reflexivity|]. apply gb_single. Qed.

Lemma vb_extend l p q a b st h m m' : vb (l ++ [p]) st h m -> zget addrs p = Some a -> zget addrs q = Some b ->
  h <= common (ga_bytes a) (ga_bytes b) -> (m' = false -> m = false /\ ga_plen a = ga_plen b) ->
  vb ((l ++ [p]) ++ [q]) st h m'.
Proof.
  intros (H & l1 & s & blk & E & S & G) GA GB CH PL. split; [exact H|]. exists l1, s, (blk ++ [q]).
  split; [rewrite E, <- app_assoc; reflexivity|]. split; [exact S|].
  assert (IP : In p (s :: blk)).
  { assert (I : In p (l ++ [p])) by (apply in_or_app; right; now left).
    destruct (exists_last (l := s :: blk)) as (b' & x & EB); [discriminate|]. rewrite EB in E. rewrite app_assoc in E.
    apply app_inj_tail in E as [_ ->]. rewrite EB. apply in_or_app. right. now left. }
  assert (HQ : firstn (Z.to_nat h) (ga_bytes a) = firstn (Z.to_nat h) (ga_bytes b)) by (apply common_firstn; lia).
  assert (ONE : forall x y u v, In x (s :: blk) -> y = q -> zget addrs x = Some u -> zget addrs y = Some v ->
     firstn (Z.to_nat h) (ga_bytes u) = firstn (Z.to_nat h) (ga_bytes v) /\ (m' = false -> ga_plen u = ga_plen v)).
  { intros x y u v X -> GU GV. rewrite GB in GV. injection GV as <-. destruct (G x p u a X IP GU GA) as [G1 G2].
    split; [congruence|]. intros M. destruct (PL M) as [M1 M2]. rewrite <- M2. now apply G2. }
  intros x y u v X Y GU GV. change (s :: blk ++ [q]) with ((s :: blk) ++ [q]) in X, Y.
  apply in_app_or in X as [X|[<-|[]]], Y as [Y|[<-|[]]].
  - destruct (G x y u v X Y GU GV) as [G1 G2]. split; [exact G1|]. intros M. apply G2. now apply PL.
  - now apply (ONE x q u v).
  - destruct (ONE y q v u Y eq_refl GV GU) as [G1 G2]. split; [now symmetry|]. intros M. symmetry. now apply G2.
  - rewrite GU in GV. injection GV as <-. now split.
Qed.
Lemma vb_shrink l p st h m : vb (l ++ [p]) st h m -> st <> Some p -> vb l st h m.
Proof.
  intros (H & l1 & s & blk & E & S & G) NS. split; [exact H|]. destruct blk as [|b blk'].
  - apply app_inj_tail in E as [_ E]. congruence.
  - destruct (exists_last (l := b :: blk')) as (b2 & x & EB); [discriminate|]. rewrite EB in E, G.
    change (l1 ++ s :: b2 ++ [x]) with (l1 ++ (s :: b2) ++ [x]) in E. rewrite app_assoc in E. apply app_inj_tail in E as [-> _].
    exists l1, s, b2. split; [reflexivity|]. split; [exact S|]. intros y z u v Y Z.
    apply G; [destruct Y as [<-|Y]; [now left|right; apply in_or_app; now left]|destruct Z as [<-|Z]; [now left|right; apply in_or_app; now left]].
Qed.

(** ** The compression table *)
Definition table (l : list Z) (acs : list acse) : Prop :=
  forall i, 0 <= i < al -> exists e, zget acs i = Some e /\ vb l (ac_ptr e) i (ac_multi e).
(** same blocks, other sizes *)
Definition same_ptrs (acs acs' : list acse) : Prop :=
  forall i, match zget acs i, zget acs' i with
            | Some e, Some e' => ac_ptr e = ac_ptr e' /\ ac_multi e = ac_multi e' /\ ac_closed e = ac_closed e'
            | None, None => True
            | _, _ => False
            end.
Lemma same_ptrs_refl acs : same_ptrs acs acs.
Proof. intros i. destruct (zget acs i); auto. Qed.
Lemma same_ptrs_trans a b d : same_ptrs a b -> same_ptrs b d -> same_ptrs a d.
Proof.
  intros H G i. specialize (H i). specialize (G i). destruct (zget a i), (zget b i), (zget d i); try tauto.
  destruct H as (A & B & D), G as (A' & B' & D'). repeat split; congruence.
Qed.
Lemma same_ptrs_set acs i e acs' t : zget acs i = Some e -> zset acs i (set_total e t) = Some acs' -> same_ptrs acs acs'.
Proof.
  intros G S j. rewrite (zget_zset _ _ _ _ _ S). destruct (Z.eqb_spec j i) as [->|].
  - rewrite G. now cbn.
  - destruct (zget acs j); auto.
Qed.
Lemma same_ptrs_table l acs acs' : same_ptrs acs acs' -> table l acs -> table l acs'.
Proof.
  intros S T i I. destruct (T i I) as (e & G & V). specialize (S i). rewrite G in S. destruct (zget acs' i) as [e'|]; [|tauto].
  destruct S as (A & B & _). exists e'. split; [reflexivity|]. now rewrite <- A, <- B.
Qed.

Lemma close_best_total acs : forall is best size, (forall i, In i is -> exists e, zget acs i = Some e) ->
  exists b sz, close_best acs is best size = Some (b, sz) /\ (b = best \/ In b is).
Proof.
  induction is as [|i is IH]; intros best size T; cbn [close_best]; [exists best, size; split; [reflexivity|now left]|].
  destruct (T i (or_introl eq_refl)) as (e & ->). destruct (ac_total e <? size).
  - destruct (IH i (ac_total e) (fun j J => T j (or_intror J))) as (b & sz & -> & [-> | I]); eexists _, _; (split; [reflexivity|]); cbn; auto.
  - destruct (IH best size (fun j J => T j (or_intror J))) as (b & sz & -> & [-> | I]); eexists _, _; (split; [reflexivity|]); cbn; auto.
Qed.
Lemma close_totals_total size : forall is acs, (forall i, In i is -> exists e, zget acs i = Some e) ->
  exists acs', close_totals acs is size = Some acs' /\ same_ptrs acs acs'.
Proof.
  induction is as [|i is IH]; intros acs T; cbn [close_totals]; [exists acs; split; [reflexivity|apply same_ptrs_refl]|].
  destruct (T i (or_introl eq_refl)) as (e & G). rewrite G.
  destruct (zset_Some acs i (set_total e size)) as (acs1 & S); [now apply zget_bound in G|]. rewrite S.
  pose proof (same_ptrs_set _ _ _ _ _ G S) as P1.
  destruct (IH acs1) as (acs' & -> & P2).
  { intros j J. destruct (T j (or_intror J)) as (ej & GJ). specialize (P1 j). rewrite GJ in P1. destruct (zget acs1 j); [eauto|tauto]. }
  exists acs'. split; [reflexivity|]. eapply same_ptrs_trans; eassumption.
Qed.

Lemma close_ok acs lo ch : 0 <= ch < al -> (forall i, 0 <= i < al -> exists e, zget acs i = Some e) ->
  exists acs' lo' best e, close_addrblock al acs lo ch = Some (acs', lo') /\ same_ptrs acs acs' /\ 0 <= best < al /\ zget acs best = Some e /\
    lo' = (if negb (ac_closed e) || (match ao_start lo with None => true | Some _ => false end)
           then Aobj (ao_index lo) (ac_ptr e) (ac_multi e) best (ao_end lo) (ao_done lo) else lo).
Proof.
  intros CH T. unfold close_addrblock. rewrite Z.gtb_ltb. destruct (Z.ltb_spec al ch); [lia|].
  destruct (T ch CH) as (e & ->).
  assert (T' : forall i, In i (zrange (ch + 1) (Z.to_nat (al - (ch + 1)))) -> exists e, zget acs i = Some e).
  { intros i I. apply zrange_In in I. apply T. lia. }
  destruct (close_best_total acs _ ch (ac_total e) T') as (b & sz & -> & B).
  assert (BR : 0 <= b < al) by (destruct B as [-> | B]; [exact CH|]; apply zrange_In in B; lia).
  destruct (T b BR) as (eb & GB). rewrite GB.
  destruct (close_totals_total sz _ acs T') as (acs' & -> & P).
  eexists acs', _, b, eb. split; [reflexivity|]. split; [exact P|]. split; [exact BR|]. split; [exact GB|reflexivity].
Qed.

(** ** One address more *)
Definition nextt (prev : option (list Z * Z)) (pos : Z) (acs acs' : list acse) (i : Z) : Prop :=
  exists e', zget acs' i = Some e' /\
    match prev with
    | None => ac_ptr e' = Some pos
    | Some (l, p) => (ac_ptr e' = Some pos /\ ac_closed e' = true) \/
                     (ac_closed e' = false /\ vb ((l ++ [p]) ++ [pos]) (ac_ptr e') i (ac_multi e') /\ exists e, zget acs i = Some e /\ ac_ptr e' = ac_ptr e)
    end.

Lemma compress_one_ok objs prev a pos index spl ch acs st i :
  0 <= i < al -> (forall j, i <= j < al -> exists e, zget acs j = Some e) ->
  zget addrs pos = Some a -> 1 <= spl ->
  match prev with
  | None => True
  | Some (l, p) => exists b, zget addrs p = Some b /\ ch = common (ga_bytes b) (ga_bytes a) /\ (spl = 1 \/ ga_plen b = ga_plen a) /\
      exists e, zget acs i = Some e /\ vb (l ++ [p]) (ac_ptr e) i (ac_multi e) /\ exists ix, index_of objs (ac_ptr e) = Some ix
  end ->
  exists acs' st', compress_one al objs (match prev with None => None | Some (_, p) => zget addrs p end) a pos index spl ch acs st i = Some (acs', st') /\
    nextt prev pos acs acs' i /\ forall j, j <> i -> zget acs' j = zget acs j.
Proof.
  intros I T GA SP PR. unfold compress_one.
  destruct (T i ltac:(lia)) as (e & GE). destruct (T (al - 1) ltac:(lia)) as (el & GL). rewrite GE, GL.
  assert (SET : forall x, exists acs', zset acs i x = Some acs') by (intros x; apply zset_Some; now apply zget_bound in GE).
  destruct prev as [[l p]|].
  - destruct PR as (b & GB & CH & PL & e0 & GE0 & V & ix & IX). rewrite GE in GE0. injection GE0 as <-. rewrite GB.
    cbn [orb]. destruct (Z.ltb_spec ch i) as [LT|LE].
    + (* the block ends *)
      cbv iota zeta. cbn [orb].
      match goal with |- context [zset acs i ?x] => destruct (SET x) as (acs' & S) end. rewrite S. eexists _, _. split; [reflexivity|].
      split; [|intros j J; rewrite (zget_zset _ _ _ _ _ S); destruct (Z.eqb_spec j i); [lia|reflexivity]].
      eexists. split; [rewrite (zget_zset _ _ _ _ _ S), Z.eqb_refl; reflexivity|]. left. now split.
    + assert (X : exists cc multi, (if ac_multi e then Some (al - i + 1, true)
           else if spl =? 1 then match index_of objs (ac_ptr e) with None => None | Some ix => Some (al - i + (ix - index + 1), true) end
           else Some (al - i, false)) = Some (cc, multi) /\ (multi = false -> ac_multi e = false /\ ga_plen b = ga_plen a)).
      { destruct (ac_multi e); [eexists _, _; split; [reflexivity|discriminate]|].
        destruct (Z.eqb_spec spl 1) as [->|NS]; [rewrite IX; eexists _, _; split; [reflexivity|discriminate]|].
        eexists _, _. split; [reflexivity|]. intros _. split; [reflexivity|]. destruct PL; [lia|assumption]. }
      destruct X as (cc & multi & -> & MU). cbv iota zeta. cbn [orb].
      match goal with |- context [zset acs i ?x] => destruct (SET x) as (acs' & S) end. rewrite S. eexists _, _. split; [reflexivity|].
      split; [|intros j J; rewrite (zget_zset _ _ _ _ _ S); destruct (Z.eqb_spec j i); [lia|reflexivity]].
      eexists. split; [rewrite (zget_zset _ _ _ _ _ S), Z.eqb_refl; reflexivity|].
      destruct (_ >? _); cbn [ac_ptr ac_closed ac_multi]; [left; now split|]. right. split; [reflexivity|].
      split; [|exists e; now split].
      eapply vb_extend; [exact V|exact GB|exact GA|lia|exact MU].
  - cbv iota zeta. cbn [orb].
    match goal with |- context [zset acs i ?x] => destruct (SET x) as (acs' & S) end. rewrite S. eexists _, _. split; [reflexivity|].
    split; [|intros j J; rewrite (zget_zset _ _ _ _ _ S); destruct (Z.eqb_spec j i); [lia|reflexivity]].
    eexists. split; [rewrite (zget_zset _ _ _ _ _ S), Z.eqb_refl; reflexivity|]. reflexivity.
Qed.

Lemma compress_all_ok objs prev a pos index spl ch acs0' :
  zget addrs pos = Some a -> 1 <= spl ->
  (forall j, 0 <= j < al -> exists e, zget acs0' j = Some e) ->
  match prev with
  | None => True
  | Some (l, p) => exists b, zget addrs p = Some b /\ ch = common (ga_bytes b) (ga_bytes a) /\ (spl = 1 \/ ga_plen b = ga_plen a) /\
      forall i, 0 <= i < al -> exists e, zget acs0' i = Some e /\ vb (l ++ [p]) (ac_ptr e) i (ac_multi e) /\ exists ix, index_of objs (ac_ptr e) = Some ix
  end ->
  forall n lo acs st, 0 <= lo -> lo + Z.of_nat n = al ->
  (forall j, lo <= j < al -> zget acs j = zget acs0' j) ->
  (forall j, 0 <= j < lo -> nextt prev pos acs0' acs j) ->
  exists acs' st', compress_all al objs (match prev with None => None | Some (_, p) => zget addrs p end) a pos index spl ch (zrange lo n) acs st = Some (acs', st') /\
    forall j, 0 <= j < al -> nextt prev pos acs0' acs' j.
Proof.
  intros GA SP T PR. induction n as [|n IH]; intros lo acs st L0 LE A B; cbn [zrange compress_all].
  - eexists _, _. split; [reflexivity|]. intros j J. apply B. lia.
  - destruct (compress_one_ok objs prev a pos index spl ch acs st lo) as (acs1 & st1 & C1 & N1 & F1); try assumption; try lia.
    + intros j J. rewrite A by lia. apply T. lia.
    + destruct prev as [[l p]|]; [|exact Logic.I]. destruct PR as (b & GB & CH & PL & E). exists b. split; [exact GB|]. split; [exact CH|]. split; [exact PL|].
      rewrite A by lia. apply E. lia.
    + rewrite C1. apply IH; try lia.
      * intros j J. rewrite F1 by lia. apply A. lia.
      * intros j J. destruct (Z.eq_dec j lo) as [->|NJ].
        -- destruct N1 as (e' & G & M). exists e'. split; [exact G|]. destruct prev as [[l p]|]; [|exact M].
           destruct M as [M|(M1 & M2 & e & M3 & M4)]; [now left|right]. split; [exact M1|]. split; [exact M2|]. exists e. rewrite <- A by lia. now split.
        -- destruct (B j ltac:(lia)) as (e' & G & M). exists e'. split; [rewrite F1 by lia; exact G|exact M].
Qed.

(** ** Finished blocks *)
Inductive segs (objs : list aobj) : list Z -> Prop :=
| sg_nil : segs objs []
| sg_cons s blk o rest : zget objs s = Some o -> ao_end o = Some (List.last (s :: blk) s) -> 0 <= ao_head o < al ->
    gb (ao_head o) (ao_multi o) (s :: blk) -> segs objs rest -> segs objs ((s :: blk) ++ rest).
Lemma segs_snoc objs l s blk o : segs objs l -> zget objs s = Some o -> ao_end o = Some (List.last (s :: blk) s) -> 0 <= ao_head o < al ->
  gb (ao_head o) (ao_multi o) (s :: blk) -> segs objs (l ++ s :: blk).
Proof.
  intros S G E H B. induction S as [|s' blk' o' rest G' E' H' B' S' IH].
  - cbn [app]. rewrite <- (app_nil_r (s :: blk)). econstructor; try eassumption. constructor.
  - rewrite <- app_assoc. econstructor; eassumption.
Qed.

Definition numbered (base : Z) (cur : list Z) (objs : list aobj) : Prop :=
  forall l1 p l2, cur = l1 ++ p :: l2 -> exists o, zget objs p = Some o /\ ao_index o = base + zlen l1.
Lemma NoDup_split_l (l1 : list Z) p l2 : NoDup (l1 ++ p :: l2) -> ~ In p l1 /\ ~ In p l2.
Proof. intros N. apply NoDup_remove_2 in N. split; intros I; apply N; apply in_or_app; auto. Qed.

Lemma forward_ok cur first base : NoDup cur -> (exists t, cur = first :: t) ->
  forall n l addr rest objs, cur = l ++ addr :: rest -> (length l < n)%nat -> numbered base cur objs ->
  (forall l1 p l2, l ++ [addr] = l1 ++ p :: l2 -> exists o, zget objs p = Some o /\ vb (l1 ++ [p]) (ao_start o) (ao_head o) (ao_multi o)) ->
  exists objs', forward_pointers n cur objs first addr = Some objs' /\ segs objs' (l ++ [addr]) /\
    (forall p, In p rest -> zget objs' p = zget objs p).
Proof.
  intros ND (t & FT). induction n as [|n IH]; intros l addr rest objs E LN NU V; [lia|]. cbn [forward_pointers].
  destruct (V l addr [] eq_refl) as (o & GO & HB & l1 & s & blk & EB & ST & GBK). rewrite GO, ST.
  assert (CUR : cur = l1 ++ s :: blk ++ rest).
  { rewrite E. change (l ++ addr :: rest) with (l ++ [addr] ++ rest). rewrite app_assoc, EB, <- app_assoc. reflexivity. }
  destruct (NU l1 s (blk ++ rest) CUR) as (os & GS & IS). rewrite GS.
  set (os' := Aobj (ao_index os) (ao_start os) (ao_multi o) (ao_head o) (Some addr) (ao_done os)).
  destruct (zset_Some objs s os') as (objs1 & Z1); [now apply zget_bound in GS|]. rewrite Z1.
  assert (G1 : forall p, zget objs1 p = if p =? s then Some os' else zget objs p) by (intros p; now rewrite (zget_zset _ _ _ _ _ Z1)).
  assert (LB : List.last (s :: blk) s = addr).
  { destruct (exists_last (l := s :: blk)) as (b' & x & EX); [discriminate|]. rewrite EX in *. rewrite last_last.
    rewrite app_assoc in EB. now apply app_inj_tail in EB as [_ ->]. }
  rewrite CUR in ND. destruct (NoDup_split_l _ _ _ ND) as [NI1 NI2].
  assert (NR : forall p, In p rest -> p <> s) by (intros p P ->; apply NI2; apply in_or_app; now right).
  assert (FS : s = first <-> l1 = []).
  { rewrite FT in CUR. destruct l1 as [|x l1]; [injection CUR as -> _; tauto|]. injection CUR as -> _. split; [|discriminate].
    intros ->. exfalso. apply NI1. now left. }
  destruct (Z.eqb_spec s first) as [EF|NF].
  - exists objs1. split; [reflexivity|]. split.
    + rewrite EB. assert (L1 : l1 = []) by now apply FS. rewrite L1. cbn [app]. rewrite <- (app_nil_r (s :: blk)).
      apply sg_cons with (o := os'); cbn [os' ao_end ao_head ao_multi]; try assumption; [now rewrite G1, Z.eqb_refl|now rewrite LB|constructor].
    + intros p P. rewrite G1. destruct (Z.eqb_spec p s); [exfalso; now apply (NR p)|reflexivity].
  - assert (L1 : l1 <> []) by (intros X; apply NF, FS, X).
    destruct (NU [] first t FT) as (of & GF & IF). change (zlen []) with 0 in IF.
    unfold index_of. rewrite G1. destruct (Z.eqb_spec first s); [congruence|]. rewrite GF.
    assert (0 < zlen l1) by (destruct l1; [congruence|]; rewrite zlen_cons; pose proof (zlen_nonneg l1); lia).
    rewrite Z.gtb_ltb. destruct (Z.ltb_spec (ao_index of) (ao_index os)); [|lia].
    destruct (exists_last L1) as (l' & addr' & EL). 
    assert (BF : before cur s = Some addr').
    { rewrite CUR, EL, <- app_assoc. cbn [app]. apply before_split. rewrite EL, <- app_assoc in ND. exact ND. }
    rewrite BF.
    destruct (IH l' addr' ((s :: blk) ++ rest) objs1) as (objs' & FP & SG & UN).
    + rewrite CUR, EL, <- app_assoc. reflexivity.
    + assert (length (l ++ [addr]) = length (l1 ++ s :: blk)) as LL by now rewrite EB. rewrite EL in LL. rewrite !app_length in LL. cbn [length] in LL. lia.
    + intros m1 p m2 M. destruct (NU m1 p m2 M) as (op & GP & IP). rewrite G1. destruct (Z.eqb_spec p s) as [->|].
      * rewrite GS in GP. injection GP as <-. eexists. split; [reflexivity|exact IP].
      * exists op. now split.
    + intros m1 p m2 M. assert (P1 : In p l1) by (rewrite EL, M; apply in_or_app; right; now left).
      destruct (V m1 p (m2 ++ s :: blk)) as (op & GP & VP).
      { rewrite EB, EL, M, <- app_assoc. reflexivity. }
      exists op. split; [|exact VP]. rewrite G1. destruct (Z.eqb_spec p s) as [->|]; [contradiction|exact GP].
    + exists objs'. split; [exact FP|]. split.
      * rewrite EB, EL. assert (GS' : zget objs' s = Some os') by (rewrite UN by (now left); now rewrite G1, Z.eqb_refl).
        apply segs_snoc with (o := os'); cbn [os' ao_end ao_head ao_multi]; try assumption. now rewrite LB.
      * intros p P. rewrite UN by (apply in_or_app; now right). rewrite G1. destruct (Z.eqb_spec p s); [exfalso; now apply (NR p)|reflexivity].
Qed.

(** ** Writing them *)
Lemma members_ok_of objs : forall ps prev base, (forall p, In p ps -> exists a, zget addrs p = Some a) -> numbered base ps objs ->
  exists ms, members addrs objs prev ps = Some ms /\ map mb_pos ms = ps /\
    (forall k m, zget ms k = Some m -> mb_index m = base + k /\ zget addrs (mb_pos m) = Some (mb_addr m)) /\
    (forall k m m', zget ms k = Some m -> zget ms (k + 1) = Some m' -> mb_prev m' = Some (mb_addr m)) /\
    (forall m, zget ms 0 = Some m -> mb_prev m = prev).
Proof.
  induction ps as [|p ps IH]; intros prev base VA NU; cbn [members].
  - exists []. split; [reflexivity|]. split; [reflexivity|].
    split; [|split]; intros; match goal with H : zget [] _ = Some _ |- _ => now apply zget_bound in H as [? ?%Z.lt_nge] end.
  - destruct (VA p (or_introl eq_refl)) as (a & GA). destruct (NU [] p ps eq_refl) as (o & GO & IO). rewrite GA, GO.
    change (zlen []) with 0 in IO.
    destruct (IH (Some a) (base + 1)) as (ms & -> & MP & MI & MV & M0).
    { intros q Q. apply VA. now right. }
    { intros l1 q l2 E. destruct (NU (p :: l1) q l2) as (oq & GQ & IQ); [now rewrite E|]. exists oq. split; [exact GQ|]. rewrite zlen_cons in IQ. lia. }
    eexists. split; [reflexivity|]. split; [cbn [map mb_pos]; now rewrite MP|].
    set (m := Memb p (ao_index o) a prev).
    assert (SH : forall k, k <> 0 -> zget (m :: ms) k = zget ms (k - 1)).
    { intros k K. change (m :: ms) with ([m] ++ ms). rewrite zget_app. change (zlen [m]) with 1.
      destruct (Z.ltb_spec k 1); [|reflexivity]. assert (k < 0) by lia. transitivity (@None memb); [apply zget_None; lia|symmetry; apply zget_None; lia]. }
    split; [|split].
    + intros k m' G. destruct (Z.eq_dec k 0) as [->|NK].
      * change (zget (m :: ms) 0) with (Some m) in G. injection G as <-. cbn [m mb_index mb_pos mb_addr]. split; [lia|exact GA].
      * rewrite SH in G by exact NK. destruct (MI _ _ G) as [A B]. split; [lia|exact B].
    + intros k m1 m2 G G'. pose proof (zget_bound _ _ _ G) as BK. destruct (Z.eq_dec k 0) as [->|NK].
      * change (zget (m :: ms) 0) with (Some m) in G. injection G as <-. rewrite SH in G' by lia. change (0 + 1 - 1) with 0 in G'. now apply M0.
      * rewrite SH in G by exact NK. rewrite SH in G' by lia. replace (k + 1 - 1) with (k - 1 + 1) in G' by lia. eapply MV; eassumption.
    + intros m' G. change (zget (m :: ms) 0) with (Some m) in G. now injection G as <-.
Qed.

(** the blocks with their addresses *)
Definition blocks_say (b : bytes) (ps : list Z) : Prop :=
  exists bs : list (wblock * list gaddr),
    b = flat_map enc_block (map fst bs) /\ map (zget addrs) ps = map Some (concat (map snd bs)) /\
    Forall (fun x => wf_block al (fst x) /\ has_addresses al (fst x) (snd x) /\ has_tlvs (fst x) (snd x)) bs.

Lemma block_ok objs prev ps base head multi : ps <> [] -> zlen ps <= 255 -> NoDup ps ->
  (forall p, In p ps -> exists a, zget addrs p = Some a) -> numbered base ps objs -> 0 <= head < al -> gb head multi ps ->
  exists ms b, members addrs objs prev ps = Some ms /\ write_block al head multi ms = Some b /\ (zlen b < 65536 -> blocks_say b ps).
Proof.
  intros NE LE ND VA NU HB GBK. destruct (members_ok_of objs ps prev base VA NU) as (ms & ME & MP & MI & MV & _).
  assert (ZL : zlen ms = zlen ps) by (rewrite <- MP; symmetry; apply zlen_map).
  assert (MA : forall m, In m ms -> zget addrs (mb_pos m) = Some (mb_addr m)).
  { intros m M. destruct (In_zget ms m M) as (k & G). now apply (MI k). }
  assert (INA : forall k m, zget ms k = Some m -> In (mb_addr m) addrs).
  { intros k m G. eapply zget_In, MA, zget_In, G. }
  assert (IMP : forall m, In m ms -> In (mb_pos m) ps) by (intros m M; rewrite <- MP; now apply in_map).
  assert (MO : members_ok ms base).
  { split; [|split; [|split; [|split; [|split; [|split]]]]].
    - rewrite ZL. split; [|exact LE]. destruct ps; [congruence|]. rewrite zlen_cons. pose proof (zlen_nonneg ps). lia.
    - now rewrite MP.
    - intros k m G. now apply MI.
    - exact MV.
    - intros k m t G T. destruct (addr_get _ _ (MA _ (zget_In _ _ _ G))) as (_ & _ & _ & F). rewrite Forall_forall in F. now apply F.
    - intros k k' m m' t t' G G' T T'. destruct PT as [P1 _]. apply (P1 (mb_addr m) t (mb_addr m') t'); try assumption; eapply INA; eassumption.
    - intros k m G. destruct PT as [_ P2]. apply P2. eapply INA, G. }
  destruct (block_written al head multi ms base al_range MO) as (b & W & S).
  - intros m M. eapply addr_get, MA, M.
  - right. split; [exact HB|]. intros m m' M M'. apply (GBK (mb_pos m) (mb_pos m')); auto.
  - destruct multi; [now left|right]. intros m m' M M'. apply (GBK (mb_pos m) (mb_pos m') (mb_addr m) (mb_addr m')); auto.
  - exists ms, b. split; [exact ME|]. split; [exact W|]. intros SZ. destruct (S SZ) as (wb & -> & WF & HA & HT).
    exists [(wb, map mb_addr ms)]. cbn [map fst snd concat flat_map]. rewrite !app_nil_r. split; [reflexivity|]. split.
    + rewrite <- MP, !map_map. apply map_ext_in. intros m M. now apply MA.
    + constructor; [|constructor]. now split.
Qed.

Lemma blocks_app b1 b2 p1 p2 : blocks_say b1 p1 -> blocks_say b2 p2 -> blocks_say (b1 ++ b2) (p1 ++ p2).
Proof.
  intros (x & -> & X2 & X3) (y & -> & Y2 & Y3). exists (x ++ y). rewrite !map_app, flat_map_app, concat_app, map_app, X2, Y2.
  split; [reflexivity|]. split; [reflexivity|]. now apply Forall_app.
Qed.

Lemma write_ok objs : forall l, segs objs l -> forall n prev base, l <> [] -> (length l <= n)%nat -> zlen l <= 255 -> NoDup l ->
  (forall p, In p l -> exists a, zget addrs p = Some a) -> numbered base l objs ->
  exists b, write_addresses n al addrs objs prev l = Some b /\ (zlen b < 65536 -> blocks_say b l).
Proof.
  intros l SG. induction SG as [|s blk o rest G E H B SG IH]; [congruence|]. intros n prev base _ LN LE ND VA NU.
  destruct n as [|n]; [cbn in LN; lia|]. set (sb := s :: blk) in *.
  cbn [write_addresses]. unfold sb at 1. cbn [app]. rewrite G, E.
  destruct (last_snoc sb s ltac:(discriminate)) as (pre & EP). set (e := List.last sb s) in *.
  change (s :: blk ++ rest) with (sb ++ rest). rewrite (upto_block pre e sb rest EP ND).
  assert (SP : forall p, In p sb -> In p (sb ++ rest)) by (intros p P; apply in_or_app; now left).
  assert (ZZ : zlen (sb ++ rest) = zlen sb + zlen rest) by apply zlen_app.
  pose proof (zlen_nonneg sb). pose proof (zlen_nonneg rest).
  pose proof ND as ND'.
  assert (NB : NoDup sb).
  { clear - ND'. induction sb as [|x l IHl]; [constructor|]. inversion ND' as [|? ? NI N]; subst. constructor; [|now apply IHl].
    intros I. apply NI. apply in_or_app. now left. }
  destruct (block_ok objs prev sb base (ao_head o) (ao_multi o)) as (ms & b & -> & -> & S); try assumption; try lia.
  { discriminate. }
  { intros p P. apply VA, SP, P. }
  { intros l1 p l2 EE. apply (NU l1 p (l2 ++ rest)). rewrite EE, <- app_assoc. reflexivity. }
  destruct rest as [|r rest'].
  - exists b. split; [reflexivity|]. rewrite app_nil_r. exact S.
  - set (rest := r :: rest') in *. destruct (IH n (zget addrs e) (base + zlen sb)) as (b2 & -> & S2).
    + discriminate.
    + rewrite app_length in LN. unfold sb in LN. cbn [length] in LN. lia.
    + lia.
    + clear - ND'. induction sb as [|x l IHl]; [exact ND'|]. apply IHl. now inversion ND'.
    + intros p P. apply VA. apply in_or_app. now right.
    + intros l1 p l2 EE. destruct (NU (sb ++ l1) p l2) as (op & GP & IP); [now rewrite EE, <- app_assoc|]. exists op. split; [exact GP|].
      rewrite zlen_app in IP. lia.
    + exists (b ++ b2). split; [reflexivity|]. rewrite zlen_app. intros SZ. pose proof (zlen_nonneg b). pose proof (zlen_nonneg b2).
      apply blocks_app; [apply S|apply S2]; lia.
Qed.

Lemma finalize_ok cur objs base : NoDup cur -> zlen cur <= 255 -> (forall p, In p cur -> exists a, zget addrs p = Some a) ->
  numbered base cur objs ->
  (forall l1 p l2, cur = l1 ++ p :: l2 -> exists o, zget objs p = Some o /\ vb (l1 ++ [p]) (ao_start o) (ao_head o) (ao_multi o)) ->
  exists objs' b, finalize_addresses al addrs objs cur = Some (objs', b) /\ (zlen b < 65536 -> blocks_say b cur).
Proof.
  intros ND LE VA NU V. unfold finalize_addresses. destruct cur as [|first t] eqn:EC.
  - exists objs, []. split; [reflexivity|]. intros _. exists []. repeat split; constructor.
  - rewrite <- EC in *. assert (NE : cur <> []) by (rewrite EC; discriminate).
    destruct (last_snoc cur first NE) as (l & EL). set (addr := List.last cur first) in *.
    destruct (forward_ok cur first base ND (ex_intro _ t EC) (length cur) l addr [] objs) as (objs' & FP & SG & _); try assumption.
    + rewrite EL, app_length. cbn [length]. lia.
    + now rewrite <- EL.
    + rewrite FP. rewrite <- EL in SG.
      assert (NU' : numbered base cur objs').
      { intros l1 p l2 E. destruct (NU l1 p l2 E) as (o & G & I). destruct (forward_frame _ _ _ _ _ _ FP) as [_ F]. specialize (F p).
        unfold dn in F. rewrite G in F. destruct (zget objs' p) as [o'|]; [|discriminate]. exists o'. split; [reflexivity|]. injection F as F _. congruence. }
      destruct (write_ok objs' cur SG (length cur) None base) as (b & W & S); try assumption; try lia.
      rewrite W. exists objs', b. now split.
Qed.

(** ** The states *)
Record cinv (s : gstate) : Prop := {
  k_num : numbered (gs_idx s - zlen (gs_cur s)) (gs_cur s) (gs_objs s);
  k_objs : forall l1 p l2, gs_cur s = l1 ++ p :: l2 -> l2 <> [] ->
     exists o, zget (gs_objs s) p = Some o /\ vb (l1 ++ [p]) (ao_start o) (ao_head o) (ao_multi o);
  k_last : forall l p, gs_cur s = l ++ [p] -> gs_lp s = Some p /\ exists o, zget (gs_objs s) p = Some o /\ ao_start o = None;
  k_tab : gs_cur s <> [] -> table (gs_cur s) (gs_acs s);
  k_fresh : forall p o a, gs_pos s <= p -> zget (gs_objs s) p = Some o -> zget addrs p = Some a ->
     (ao_done o = false \/ ga_mand a = true) -> ao_start o = None;
  k_spl : gs_first s = false -> 1 <= gs_spl s;
  k_lpd : forall lp, gs_lp s = Some lp -> done_at (gs_objs s) lp = true
}.
Lemma cinv_init : cinv (g_init c).
Proof.
  constructor; cbn [g_init gs_cur gs_objs gs_pos gs_first gs_lp gs_idx]; try congruence.
  - intros [|? ?] p l2 E; discriminate.
  - intros [|? ?] p l2 E; discriminate.
  - intros [|? ?] p E; discriminate.
  - intros p o a P G. rewrite zget_repeat in G. destruct (_ && _); [|discriminate]. injection G as <-. reflexivity.
Qed.

Lemma common_full : forall a b, zlen a = zlen b -> common a b = zlen a -> a = b.
Proof.
  induction a as [|x a IH]; intros [|y b]; rewrite ?zlen_cons; try (pose proof (zlen_nonneg a)); try (pose proof (zlen_nonneg b));
    try (change (zlen []) with 0); intros L C; try lia; [reflexivity|]. cbn [common] in C.
  destruct (Z.eqb_spec x y) as [->|]; [|lia]. f_equal. apply IH; lia.
Qed.
Lemma common_less p q a b : zget addrs p = Some a -> zget addrs q = Some b -> p <> q -> 0 <= common (ga_bytes a) (ga_bytes b) < al.
Proof.
  intros GA GB NE. destruct (addr_get _ _ GA) as (LA & _). destruct (addr_get _ _ GB) as (LB & _).
  split; [apply common_nonneg|]. pose proof (common_le (ga_bytes a) (ga_bytes b)) as CL.
  destruct (Z.eq_dec (common (ga_bytes a) (ga_bytes b)) al) as [E|]; [|lia]. exfalso. apply NE.
  assert (EQ : ga_bytes a = ga_bytes b) by (apply common_full; congruence).
  unfold distinct in DI. rewrite NoDup_nth_error in DI. fold addrs in DI.
  pose proof (zget_bound _ _ _ GA) as BA. pose proof (zget_bound _ _ _ GB) as BB.
  specialize (DI (Z.to_nat p) (Z.to_nat q)). unfold zget in GA, GB. destruct (Z.ltb_spec p 0), (Z.ltb_spec q 0); try lia.
  rewrite map_length in DI. unfold zlen in BA. specialize (DI ltac:(lia)).
  rewrite (map_nth_error ga_bytes _ _ GA), (map_nth_error ga_bytes _ _ GB), EQ in DI. specialize (DI eq_refl). lia.
Qed.

Lemma vb_ptr l st h m : vb l st h m -> exists s, st = Some s /\ In s l.
Proof. intros (_ & l1 & s & blk & -> & -> & _). exists s. split; [reflexivity|]. apply in_or_app. right. now left. Qed.

(** _compress_address for the next address *)
Lemma compress_ok s a o objs : inv c s -> cinv s -> (gs_first s = false -> gs_cur s <> []) ->
  zget addrs (gs_pos s) = Some a -> zget (gs_objs s) (gs_pos s) = Some o ->
  zset (gs_objs s) (gs_pos s) (set_index o (gs_idx s)) = Some objs ->
  exists objs1 acs1 st spl,
    compress_address al addrs objs (if gs_first s then acs0 else gs_acs s) (if gs_first s then tst0 else gs_tst s)
      (prev_of (gs_cur s)) (gs_pos s) (if gs_first s then 1 else gs_spl s) = Some (objs1, acs1, st, spl) /\
    1 <= spl /\ table (gs_cur s ++ [gs_pos s]) acs1 /\
    ((gs_cur s = [] /\ objs1 = objs) \/
     exists l p lo, gs_cur s = l ++ [p] /\ zset objs p lo = Some objs1 /\ vb (gs_cur s) (ao_start lo) (ao_head lo) (ao_multi lo) /\
       (exists lo0, zget objs p = Some lo0 /\ ao_index lo = ao_index lo0 /\ ao_done lo = ao_done lo0) /\
       (forall i, 0 <= i < al -> exists e, zget acs1 i = Some e /\ (ac_closed e = false -> vb (gs_cur s) (ac_ptr e) i (ac_multi e)))).
Proof.
  intros I K FC GA GO ZS.
  assert (BELOW : forall p, In p (gs_cur s) -> p <> gs_pos s).
  { intros p P ->. pose proof (i_below c s I) as B. rewrite Forall_forall in B. specialize (B _ P). lia. }
  assert (GOB : forall p, p <> gs_pos s -> zget objs p = zget (gs_objs s) p).
  { intros p NP. rewrite (zget_zset _ _ _ _ _ ZS). destruct (Z.eqb_spec p (gs_pos s)); [contradiction|reflexivity]. }
  unfold compress_address. rewrite GA. rewrite (zget_zset _ _ _ _ _ ZS), Z.eqb_refl. cbn [set_index ao_index].
  assert (AC0 : forall i, 0 <= i < al -> exists e, zget acs0 i = Some e).
  { intros i II. pose proof al_range. unfold acs0. rewrite zget_repeat. destruct (_ && _) eqn:X; [eauto|].
    apply andb_false_iff in X as [X|X]; [apply Z.leb_gt in X|apply Z.ltb_ge in X]; lia. }
  destruct (gs_cur s) as [|p0 t] eqn:EC.
  - assert (FS : gs_first s = true) by (destruct (gs_first s); [reflexivity|exfalso; now apply FC]). rewrite FS. cbn [prev_of].
    destruct (compress_all_ok objs None a (gs_pos s) (gs_idx s) 1 0 acs0 GA ltac:(lia) AC0 Logic.I (Z.to_nat al) 0 acs0 tst0) as (acs1 & st1 & -> & NX).
    { lia. } { pose proof al_range. lia. } { reflexivity. } { intros; lia. }
    exists objs, acs1, st1, 1. split; [reflexivity|]. split; [lia|]. split.
    { intros i II. destruct (NX i II) as (e & G & P). exists e. split; [exact G|]. rewrite P. now apply (vb_single []). }
    left. now split.
  - rewrite <- EC in *. assert (NE : gs_cur s <> []) by (rewrite EC; discriminate).
    assert (FS : gs_first s = false).
    { destruct (gs_first s) eqn:FS; [|reflexivity]. exfalso. apply NE. now apply (i_cur c s I). }
    rewrite FS. destruct (last_snoc (gs_cur s) p0 NE) as (l & EL).
    assert (PV : prev_of (gs_cur s) = Some (List.last (gs_cur s) p0)) by (unfold prev_of; rewrite EC; reflexivity).
    rewrite PV. set (p := List.last (gs_cur s) p0) in *.
    assert (IP : In p (gs_cur s)) by (rewrite EL; apply in_or_app; right; now left).
    assert (NP : p <> gs_pos s) by now apply BELOW.
    pose proof (i_below c s I) as BEL. rewrite Forall_forall in BEL. pose proof (i_pos c s I) as PO.
    assert (exists b, zget addrs p = Some b) as (b & GB) by (apply zget_Some; specialize (BEL _ IP); unfold addrs; lia).
    rewrite GB. destruct (k_last s K l p EL) as (LP & lo & GL & SL). rewrite GOB by exact NP. rewrite GL.
    pose proof (k_tab s K NE) as TAB.
    pose proof (common_less p (gs_pos s) b a GB GA NP) as CHR. set (ch := common (ga_bytes b) (ga_bytes a)) in *.
    destruct (close_ok (gs_acs s) lo ch CHR) as (acsc & lo' & best & e & CL & SP & BR & GE & LO).
    { intros i II. destruct (TAB i II) as (e & G & _). eauto. }
    rewrite CL. rewrite SL in LO. rewrite orb_true_r in LO.
    destruct (zset_Some objs p lo') as (objs1 & Z1).
    { rewrite (zset_len _ _ _ _ ZS). now apply zget_bound in GL. }
    rewrite Z1.
    assert (SPL1 : 1 <= gs_spl s) by (apply (k_spl s K FS)).
    set (spl' := if ga_plen b =? ga_plen a then gs_spl s + 1 else 1).
    assert (SPL' : 1 <= spl' /\ (spl' = 1 \/ ga_plen b = ga_plen a)).
    { unfold spl'. destruct (Z.eqb_spec (ga_plen b) (ga_plen a)); split; auto; lia. }
    assert (TABC : table (gs_cur s) acsc) by (eapply same_ptrs_table; eassumption).
    assert (IDX : forall q, In q (gs_cur s) -> exists ix, index_of objs1 (Some q) = Some ix).
    { intros q Q. unfold index_of. rewrite (zget_zset _ _ _ _ _ Z1). destruct (q =? p); [eauto|]. rewrite GOB by now apply BELOW.
      destruct (in_split q (gs_cur s) Q) as (m1 & m2 & EM). destruct (k_num s K m1 q m2 EM) as (oq & GQ & _). rewrite GQ. eauto. }
    destruct (compress_all_ok objs1 (Some (l, p)) a (gs_pos s) (gs_idx s) spl' ch acsc GA (proj1 SPL')) with (n := Z.to_nat al) (lo := 0) (acs := acsc) (st := gs_tst s) as (acs1 & st1 & CA & NX).
    { intros i II. destruct (TABC i II) as (ec & G & _). eauto. }
    { exists b. split; [exact GB|]. split; [reflexivity|]. split; [apply SPL'|]. intros i II. destruct (TABC i II) as (ec & G & V). exists ec. split; [exact G|].
      rewrite <- EL. split; [exact V|]. destruct (vb_ptr _ _ _ _ V) as (q & -> & Q). now apply IDX. }
    { lia. } { pose proof al_range. lia. } { reflexivity. } { intros; lia. }
    cbv iota beta in CA. rewrite GB in CA. rewrite CA.
    exists objs1, acs1, st1, spl'. split; [reflexivity|]. split; [apply SPL'|]. split.
    { intros i II. destruct (NX i II) as (ei & G & [[P _]|(C1 & V & _)]); exists ei; (split; [exact G|]).
      - rewrite P. now apply vb_single.
      - rewrite EL. exact V. }
    right. exists l, p, lo'. split; [exact EL|]. split; [exact Z1|]. split.
    { rewrite LO. cbn [ao_start ao_head ao_multi]. destruct (TAB best BR) as (e2 & G2 & V2). rewrite GE in G2. injection G2 as <-. exact V2. }
    split; [exists lo; rewrite GOB by exact NP; rewrite LO; now split|].
    intros i II. destruct (NX i II) as (ei & G & D). exists ei. split; [exact G|]. intros CF. destruct D as [[_ C1]|(_ & V & ec & GC & PC)]; [congruence|].
    rewrite EL. eapply vb_shrink; [exact V|]. rewrite PC. destruct (TABC i II) as (ec2 & GC2 & VC). rewrite GC in GC2. injection GC2 as <-.
    destruct (vb_ptr _ _ _ _ VC) as (q & -> & Q). intros [= EQ]. now apply (BELOW q).
Qed.

(** a message is finished *)
Lemma emit_ok s objs acs single l p lo base :
  gs_lp s = Some p -> gs_cur s = l ++ [p] -> zget objs p = Some lo -> NoDup (gs_cur s) -> zlen (gs_cur s) <= 255 ->
  (forall q, In q (gs_cur s) -> exists a, zget addrs q = Some a) -> numbered base (gs_cur s) objs ->
  (forall l1 q l2, gs_cur s = l1 ++ q :: l2 -> l2 <> [] -> exists o, zget objs q = Some o /\ vb (l1 ++ [q]) (ao_start o) (ao_head o) (ao_multi o)) ->
  (forall i, 0 <= i < al -> exists e, zget acs i = Some e /\ (ac_closed e = false \/ ao_start lo = None -> vb (gs_cur s) (ac_ptr e) i (ac_multi e))) ->
  (ao_start lo <> None -> vb (gs_cur s) (ao_start lo) (ao_head lo) (ao_multi lo)) ->
  exists objs' acs' b, emit c s objs acs (gs_cur s) single = (if zlen b >? gc_room c then None else Some (objs', acs', Frag (gs_cur s) b single)) /\
    (zlen b < 65536 -> says c (Frag (gs_cur s) b single)).
Proof.
  intros LP EL GL ND LE VA NU VO TA VL. unfold emit. rewrite LP, GL. fold al addrs.
  destruct (close_ok acs lo 0) as (acs' & lo' & best & e & CL & SP & BR & GE & LO).
  { pose proof al_range. lia. } { intros i II. destruct (TA i II) as (ei & G & _). eauto. }
  rewrite CL. destruct (zset_Some objs p lo') as (objs1 & Z1); [now apply zget_bound in GL|]. rewrite Z1.
  destruct (TA best BR) as (e2 & G2 & V2). rewrite GE in G2. injection G2 as <-.
  assert (VL' : vb (gs_cur s) (ao_start lo') (ao_head lo') (ao_multi lo')).
  { rewrite LO. destruct (negb (ac_closed e)) eqn:NC.
    - apply negb_true_iff in NC. cbn [orb ao_start ao_head ao_multi]. apply V2. now left.
    - cbn [orb]. destruct (ao_start lo) eqn:SL; [rewrite SL; apply VL; discriminate|]. cbn [ao_start ao_head ao_multi]. apply V2. now right. }
  assert (IL : ao_index lo' = ao_index lo) by (rewrite LO; now destruct (_ || _)).
  assert (G1 : forall q, zget objs1 q = if q =? p then Some lo' else zget objs q) by (intros q; now rewrite (zget_zset _ _ _ _ _ Z1)).
  destruct (finalize_ok (gs_cur s) objs1 base ND LE VA) as (objs' & b & F & S).
  - intros l1 q l2 E. destruct (NU l1 q l2 E) as (oq & GQ & IQ). rewrite G1. destruct (Z.eqb_spec q p) as [->|]; [|eauto].
    exists lo'. split; [reflexivity|]. rewrite GL in GQ. injection GQ as <-. congruence.
  - intros l1 q l2 E. rewrite G1. destruct l2 as [|x l2].
    + rewrite EL in E. apply app_inj_tail in E as [-> <-]. rewrite Z.eqb_refl. exists lo'. split; [reflexivity|]. now rewrite <- EL.
    + destruct (Z.eqb_spec q p) as [->|].
      * exfalso. rewrite EL in E. rewrite EL in ND. destruct (exists_last (l := x :: l2)) as (m & y & EM); [discriminate|]. rewrite EM in E.
        change (l1 ++ p :: m ++ [y]) with (l1 ++ (p :: m) ++ [y]) in E. rewrite app_assoc in E. apply app_inj_tail in E as [-> <-].
        apply NoDup_remove_2 in ND. apply ND. rewrite app_nil_r. apply in_or_app. right. now left.
      * apply (VO l1 q (x :: l2) E). discriminate.
  - rewrite F. exists objs', acs', b. split; [reflexivity|]. intros SZ. destruct (S SZ) as (bs & A & B & D).
    exists bs. cbn [fr_bytes fr_members]. split; [exact A|]. split; [exact B|exact D].
Qed.

Lemma says_nil single : says c (Frag [] [] single).
Proof. exists []. repeat split; constructor. Qed.

Definition outs_ok (out : list frag) : Prop := forall k f, zget out k = Some f -> k = 0 \/ no_mand c -> says c f.
Definition covered (s : gstate) : Prop := no_mand c \/ gs_out s = [].

Lemma forward_starts cur first : forall n objs addr objs', forward_pointers n cur objs first addr = Some objs' ->
  forall p, option_map ao_start (zget objs' p) = option_map ao_start (zget objs p).
Proof.
  induction n as [|n IH]; intros objs addr objs'; cbn [forward_pointers]; [discriminate|].
  destruct (zget objs addr) as [o|]; [|discriminate]. destruct (ao_start o) as [s|]; [|discriminate].
  destruct (zget objs s) as [os|] eqn:G; [|discriminate].
  destruct (zset objs s _) as [objs1|] eqn:S; [|discriminate].
  assert (F : forall p, option_map ao_start (zget objs1 p) = option_map ao_start (zget objs p)).
  { intros p. rewrite (zget_zset _ _ _ _ _ S). destruct (Z.eqb_spec p s) as [->|]; [now rewrite G|reflexivity]. }
  destruct (s =? first); [intros [= <-]; exact F|].
  destruct (index_of objs1 (Some first)); [|discriminate].
  destruct (_ >? _); [|discriminate]. destruct (before cur s); [|discriminate]. intros H p.
  rewrite (IH _ _ _ H p). apply F.
Qed.
Lemma emit_starts s objs acs cur single objs' acs' f : emit c s objs acs cur single = Some (objs', acs', f) ->
  forall p, gs_lp s <> Some p -> option_map ao_start (zget objs' p) = option_map ao_start (zget objs p).
Proof.
  unfold emit. destruct (gs_lp s) as [lp|]; [|discriminate]. destruct (zget objs lp) as [lo|] eqn:G; [|discriminate].
  destruct (close_addrblock _ _ _ _) as [[acs1 lo']|] eqn:C; [|discriminate].
  destruct (zset objs lp lo') as [objs1|] eqn:S; [|discriminate].
  unfold finalize_addresses. intros H p NP.
  assert (F : option_map ao_start (zget objs1 p) = option_map ao_start (zget objs p)).
  { rewrite (zget_zset _ _ _ _ _ S). destruct (Z.eqb_spec p lp) as [->|]; [congruence|reflexivity]. }
  destruct cur as [|p0 cur'].
  - destruct (zlen [] >? gc_room c); [discriminate|]. injection H as <- <- <-. exact F.
  - destruct (forward_pointers _ _ _ _ _) as [objs2|] eqn:P; [|discriminate].
    destruct (write_addresses _ _ _ _ _ _) as [b|]; [|discriminate].
    destruct (zlen b >? gc_room c); [discriminate|]. injection H as <- <- <-. rewrite (forward_starts _ _ _ _ _ _ P p). exact F.
Qed.

Lemma cur_facts s : inv c s -> NoDup (gs_cur s) /\ zlen (gs_cur s) <= 255 /\ (forall q, In q (gs_cur s) -> exists a, zget addrs q = Some a).
Proof.
  intros I. pose proof (i_below c s I) as B. rewrite Forall_forall in B. pose proof (i_pos c s I) as P.
  pose proof (sorted_NoDup _ (i_sorted c s I)) as ND. split; [exact ND|]. split.
  - assert (length (gs_cur s) <= length (zrange 0 (length addrs)))%nat.
    { apply NoDup_incl_length; [exact ND|]. intros q Q. apply zrange_In. specialize (B _ Q). unfold addrs. unfold zlen in *. lia. }
    assert (LR : length (zrange 0 (length addrs)) = length addrs).
    { assert (ZR : forall n lo, length (zrange lo n) = n) by (induction n as [|n IH]; intros lo; cbn [zrange length]; [reflexivity|]; f_equal; apply IH). apply ZR. }
    fold addrs in FEW. unfold zlen in *. lia.
  - intros q Q. apply zget_Some. specialize (B _ Q). unfold addrs. lia.
Qed.

Lemma outs_snoc out f : outs_ok out -> (out = [] \/ no_mand c -> says c f) -> outs_ok (out ++ [f]).
Proof.
  intros O F k g G D. rewrite zget_app in G. destruct (Z.ltb_spec k (zlen out)); [now apply (O k)|].
  assert (g = f).
  { pose proof (zget_In _ _ _ G) as [E|[]]. now symmetry. }
  subst g. apply F. destruct D as [->|D]; [left|now right]. apply zlen_zero. pose proof (zlen_nonneg out). lia.
Qed.

Lemma room_small : gc_room c < 65536. Proof. apply OK. Qed.

Lemma step_say s : inv c s -> (gs_first s = false -> gs_cur s <> []) -> (covered s -> cinv s) -> outs_ok (gs_out s) ->
  match g_step c s with
  | GRun s' => (covered s' -> cinv s') /\ outs_ok (gs_out s')
  | GDone r out => outs_ok out
  | GFault => True
  end.
Proof.
  intros I FC K O. destruct (cur_facts s I) as (ND & LE & VA). destruct (step_case c s) as
    [a o GA GO D M | | NM | a o objs acs st spl objs1 acs1 objs2 acs2 f GA GO SK ZS CA BH NM EM ->
    | a o o1 objs st spl objs1 acs1 acs2 objs2 best GA GO SK ZS CA BH NB AC G1 Z2 | E L | lp objs1 acs1 f E L EM]; try exact Logic.I.
  - (* skip *)
    split; [|exact O]. intros CV. destruct (K CV) as [K1 K2 K3 K4 K5 K6 K7].
    constructor; cbn [gs_objs gs_pos gs_cur gs_out gs_acs gs_first gs_fp gs_lp gs_idx gs_spl]; try assumption.
    intros p o' a' P. apply K5. lia.
  - exact O.
  - (* cut *)
    assert (CUT : covered s -> says c f /\ (no_mand c -> forall p o' a', zget objs2 p = Some o' -> zget addrs p = Some a' -> ao_done o' = false -> 
       gs_pos s <= p -> ao_start o' = None)).
    { intros CV. specialize (K CV).
      destruct (compress_ok s a o objs I K FC GA GO ZS) as (objs1' & acs1' & st' & spl' & CA' & _ & TB & CASE).
      fold al addrs in CA. rewrite CA in CA'. injection CA' as <- <- <- <-.
      assert (IDO : forall q, In q (gs_cur s) -> q <> gs_pos s).
      { intros q Q ->. pose proof (i_below c s I) as B. rewrite Forall_forall in B. specialize (B _ Q). lia. }
      assert (GOB : forall q, q <> gs_pos s -> zget objs q = zget (gs_objs s) q).
      { intros q NQ. rewrite (zget_zset _ _ _ _ _ ZS). destruct (Z.eqb_spec q (gs_pos s)); [contradiction|reflexivity]. }
      split.
      - destruct CASE as [[EC _]|(l & p & lo & EL & ZL & VL & (lo0 & GL0 & IL & DL) & TE)].
        + apply emit_frame in EM as EF. destruct EF as [_ FM]. unfold emit in EM. destruct (gs_lp s); [|discriminate]. destruct (zget objs1 z); [|discriminate].
          destruct (close_addrblock _ _ _ _) as [[? ?]|]; [|discriminate]. destruct (zset objs1 z _); [|discriminate].
          rewrite EC in EM. cbn [finalize_addresses] in EM. destruct (_ >? _); [discriminate|]. injection EM as _ _ <-. apply says_nil.
        + destruct (k_last s K l p EL) as (LP & _).
          assert (G1 : forall q, zget objs1 q = if q =? p then Some lo else zget objs q) by (intros q; now rewrite (zget_zset _ _ _ _ _ ZL)).
          assert (NPP : p <> gs_pos s) by (apply IDO; rewrite EL; apply in_or_app; right; now left).
          destruct (emit_ok s objs1 acs1 false l p lo (gs_idx s - zlen (gs_cur s)) LP EL) as (objs' & acs' & b & EQ & SY); try assumption.
          * now rewrite G1, Z.eqb_refl.
          * intros l1 q l2 E. destruct (k_num s K l1 q l2 E) as (oq & GQ & IQ). rewrite G1. destruct (Z.eqb_spec q p) as [->|].
            -- exists lo. split; [reflexivity|]. rewrite GOB in GL0 by exact NPP. rewrite GQ in GL0. injection GL0 as <-. congruence.
            -- rewrite GOB; [eauto|]. apply IDO. rewrite E. apply in_or_app. right. now left.
          * intros l1 q l2 E NE. destruct (k_objs s K l1 q l2 E NE) as (oq & GQ & VQ). rewrite G1.
            destruct (Z.eqb_spec q p) as [->|].
            -- exfalso. rewrite EL in E, ND. destruct (exists_last NE) as (m & y & EY). rewrite EY in E.
               change (l1 ++ p :: m ++ [y]) with (l1 ++ (p :: m) ++ [y]) in E. rewrite app_assoc in E. apply app_inj_tail in E as [-> <-].
               apply NoDup_remove_2 in ND. apply ND. rewrite app_nil_r. apply in_or_app. right. now left.
            -- rewrite GOB; [eauto|]. apply IDO. rewrite E. apply in_or_app. right. now left.
          * intros i II. destruct (TE i II) as (e & G & V). exists e. split; [exact G|]. intros [CF|SN]; [now apply V|].
            destruct (vb_ptr _ _ _ _ VL) as (x & X & _). congruence.
          * intros _. exact VL.
          * rewrite EQ in EM. rewrite Z.gtb_ltb in EM. destruct (Z.ltb_spec (gc_room c) (zlen b)) as [|RM]; [discriminate|]. injection EM as <- <- <-.
            apply SY. pose proof room_small. lia.
      - intros NMD p o' a' GP GAP DN PG.
        assert (NL : gs_lp s <> Some p).
        { intros LP. pose proof (k_lpd s K p LP) as DL. apply compress_frame in CA as F1. apply emit_frame in EM as [F2 _].
          assert (done_at objs2 p = done_at (gs_objs s) p) as DE.
          { rewrite (frame_done _ _ p F2), (frame_done _ _ p F1), (done_zset _ _ _ _ ZS p). destruct (Z.eqb_spec p (gs_pos s)) as [->|]; [|reflexivity].
            unfold done_at. now rewrite GO. }
          unfold done_at in DE at 1. rewrite GP, DN in DE. congruence. }
        pose proof (emit_starts _ _ _ _ _ _ _ _ EM p NL) as ES. rewrite GP in ES. cbn [option_map] in ES.
        assert (FR : exists o0, zget (gs_objs s) p = Some o0 /\ ao_done o0 = false /\ option_map ao_start (zget objs1 p) = Some (ao_start o0)).
        { apply compress_frame in CA as F1. apply emit_frame in EM as [F2 _]. 
          assert (DE : dn objs2 p = dn objs p) by (destruct F1 as [_ F1], F2 as [_ F2]; now rewrite F2).
          assert (SE : option_map ao_start (zget objs1 p) = option_map ao_start (zget objs p)).
          { destruct CASE as [[_ ->]|(l & q & lo & EL & ZL & _)]; [reflexivity|]. rewrite (zget_zset _ _ _ _ _ ZL).
            destruct (Z.eqb_spec p q) as [->|]; [|reflexivity]. exfalso. pose proof (i_below c s I) as B. rewrite Forall_forall in B.
            specialize (B q ltac:(rewrite EL; apply in_or_app; right; now left)). lia. }
          rewrite SE. unfold dn in DE. rewrite GP in DE. rewrite (zget_zset _ _ _ _ _ ZS) in DE |- *.
          destruct (Z.eqb_spec p (gs_pos s)) as [->|].
          - exists o. cbn [option_map set_index ao_start] in *. split; [exact GO|]. split; [|reflexivity]. injection DE as _ DE. cbn in DE. congruence.
          - destruct (zget (gs_objs s) p) as [o0|] eqn:G0; [|discriminate]. exists o0. split; [reflexivity|]. split; [|reflexivity]. injection DE as _ DE. congruence. }
        destruct FR as (o0 & G0 & D0 & S0). rewrite S0 in ES. injection ES as ->. apply (k_fresh s K p o0 a'); auto. }
    split.
    + intros [NMD|OE]; cbn [gs_out] in *; [|destruct (gs_out s); discriminate].
      destruct (CUT (or_introl NMD)) as [_ FR].
      constructor; cbn [gs_objs gs_pos gs_cur gs_out gs_acs gs_first gs_fp gs_lp gs_idx gs_spl]; try congruence.
      * intros [|? ?] p l2 E; discriminate.
      * intros [|? ?] p l2 E; discriminate.
      * intros [|? ?] p E; discriminate.
      * intros p o' a' P GP GAP DM. assert (MF : ga_mand a' = false).
        { unfold no_mand in NMD. rewrite Forall_forall in NMD. apply NMD. eapply zget_In, GAP. }
        assert (DN : ao_done o' = false) by (destruct DM; congruence).
        apply (FR NMD p o' a' GP GAP DN).
        destruct (Z.le_gt_cases (gs_pos s) p) as [|LT]; [assumption|exfalso].
        apply compress_frame in CA as F1. apply emit_frame in EM as [F2 _].
        assert (P0 : 0 <= p) by (now apply zget_bound in GP).
        pose proof (i_done c s I p ltac:(lia)) as DD.
        assert (done_at objs2 p = done_at (gs_objs s) p) as DE.
        { rewrite (frame_done _ _ p F2), (frame_done _ _ p F1), (done_zset _ _ _ _ ZS p). destruct (Z.eqb_spec p (gs_pos s)); [lia|reflexivity]. }
        unfold done_at in DE at 1. rewrite GP in DE. congruence.
      * intros lp LP. apply compress_frame in CA as F1. apply emit_frame in EM as [F2 _].
        rewrite (frame_done _ _ lp F2), (frame_done _ _ lp F1), (done_zset _ _ _ _ ZS lp). specialize (K (or_introl NMD)).
        pose proof (k_lpd s K lp LP) as DL. destruct (Z.eqb_spec lp (gs_pos s)) as [->|]; [|exact DL].
        cbn [set_index ao_done]. unfold done_at in DL. now rewrite GO in DL.
    + cbn [gs_out]. apply outs_snoc; [exact O|]. intros D. apply CUT. destruct D; [now right|now left].
  - (* added *)
    cbn [gs_out]. split; [|exact O]. intros CV. assert (CV' : covered s) by (destruct CV; [now left|now right]). specialize (K CV').
    destruct (compress_ok s a o objs I K FC GA GO ZS) as (objs1' & acs1' & st' & spl' & CA' & SP & TB & CASE).
    fold al addrs in CA. rewrite CA in CA'. injection CA' as <- <- <- <-.
    assert (IDO : forall q, In q (gs_cur s) -> q <> gs_pos s).
    { intros q Q ->. pose proof (i_below c s I) as B. rewrite Forall_forall in B. specialize (B _ Q). lia. }
    assert (GOB : forall q, q <> gs_pos s -> zget objs q = zget (gs_objs s) q).
    { intros q NQ. rewrite (zget_zset _ _ _ _ _ ZS). destruct (Z.eqb_spec q (gs_pos s)); [contradiction|reflexivity]. }
    assert (GOP : zget objs (gs_pos s) = Some (set_index o (gs_idx s))) by now rewrite (zget_zset _ _ _ _ _ ZS), Z.eqb_refl.
    assert (O1 : o1 = set_index o (gs_idx s)).
    { destruct CASE as [[_ ->]|(l & q & lo & EL & ZL & _)]; [rewrite GOP in G1; now injection G1|].
      rewrite (zget_zset _ _ _ _ _ ZL) in G1. destruct (Z.eqb_spec (gs_pos s) q) as [EQ|]; [|rewrite GOP in G1; now injection G1].
      exfalso. apply (IDO q); [rewrite EL; apply in_or_app; right; now left|now symmetry]. }
    assert (G2 : forall q, zget objs2 q = if q =? gs_pos s then Some (set_done o1) else zget objs1 q) by (intros q; now rewrite (zget_zset _ _ _ _ _ Z2)).
    assert (ZL1 : zlen (gs_cur s ++ [gs_pos s]) = zlen (gs_cur s) + 1) by (rewrite zlen_app; reflexivity).
    assert (BEL : forall q, In q (gs_cur s) -> 0 <= q < gs_pos s) by (apply Forall_forall, (i_below c s I)).
    constructor; cbn [gs_objs gs_pos gs_cur gs_out gs_acs gs_first gs_fp gs_lp gs_idx gs_spl].
    + (* numbers *)
      rewrite ZL1. replace (gs_idx s + 1 - (zlen (gs_cur s) + 1)) with (gs_idx s - zlen (gs_cur s)) by lia.
      intros l1 q l2 E. rewrite G2. destruct l2 as [|x l2].
      * apply app_inj_tail in E as [<- <-]. rewrite Z.eqb_refl. eexists. split; [reflexivity|]. rewrite O1. cbn [set_done set_index ao_index]. lia.
      * destruct (snoc_split _ _ _ _ _ E ltac:(discriminate)) as (l2' & _ & EC).
        assert (IQ : In q (gs_cur s)) by (rewrite EC; apply in_or_app; right; now left).
        destruct (Z.eqb_spec q (gs_pos s)) as [EQ|NQ]; [exfalso; now apply (IDO q)|].
        destruct (k_num s K l1 q l2' EC) as (oq & GQ & IX).
        destruct CASE as [[EC0 _]|(l & p & lo & EL & ZL & VL & (lo0 & GL0 & IL & DL) & TE)]; [rewrite EC0 in IQ; destruct IQ|].
        rewrite (zget_zset _ _ _ _ _ ZL). destruct (Z.eqb_spec q p) as [->|].
        -- exists lo. split; [reflexivity|]. rewrite GOB in GL0 by exact NQ. rewrite GQ in GL0. injection GL0 as <-. congruence.
        -- rewrite GOB by exact NQ. eauto.
    + (* blocks *)
      intros l1 q l2 E NE. destruct (snoc_split _ _ _ _ _ E NE) as (l2' & _ & EC).
      assert (IQ : In q (gs_cur s)) by (rewrite EC; apply in_or_app; right; now left).
      rewrite G2. destruct (Z.eqb_spec q (gs_pos s)) as [EQ|NQ]; [exfalso; now apply (IDO q)|].
      destruct CASE as [[EC0 _]|(l & p & lo & EL & ZL & VL & (lo0 & GL0 & IL & DL) & TE)]; [rewrite EC0 in IQ; destruct IQ|].
      rewrite (zget_zset _ _ _ _ _ ZL). destruct (Z.eqb_spec q p) as [->|NP].
      * exists lo. split; [reflexivity|]. assert (l2' = []) as ->.
        { destruct l2' as [|y l2']; [reflexivity|exfalso]. rewrite EL in EC. rewrite EL in ND.
          destruct (exists_last (l := y :: l2')) as (m & z & EY); [discriminate|]. rewrite EY in EC.
          change (l1 ++ p :: m ++ [z]) with (l1 ++ (p :: m) ++ [z]) in EC. rewrite app_assoc in EC. apply app_inj_tail in EC as [-> <-].
          apply NoDup_remove_2 in ND. apply ND. rewrite app_nil_r. apply in_or_app. right. now left. }
        rewrite <- EC. exact VL.
      * rewrite GOB by exact NQ. apply (k_objs s K l1 q l2' EC). intros ->. rewrite EL in EC. apply app_inj_tail in EC as [_ ->]. congruence.
    + (* the last one *)
      intros l q E. apply app_inj_tail in E as [<- <-]. split; [reflexivity|]. rewrite G2, Z.eqb_refl. eexists. split; [reflexivity|].
      rewrite O1. cbn [set_done set_index ao_start]. apply (k_fresh s K (gs_pos s) o a); auto. lia.
    + intros _ i II. destruct (TB i II) as (e & G & V).
      rewrite (add_current_get _ _ _ _ AC i), G.
      match goal with |- context [if ?b then _ else _] => destruct b end; (eexists; split; [reflexivity|exact V]).
    + (* the ones to come *)
      intros p o' a' P GP GAP DM. rewrite G2 in GP. destruct (Z.eqb_spec p (gs_pos s)); [lia|].
      assert (GP' : zget (gs_objs s) p = Some o').
      { rewrite <- GOB by assumption. destruct CASE as [[_ <-]|(l & q & lo & EL & ZL & _)]; [exact GP|].
        rewrite (zget_zset _ _ _ _ _ ZL) in GP. destruct (Z.eqb_spec p q) as [->|]; [|exact GP].
        exfalso. specialize (BEL q ltac:(rewrite EL; apply in_or_app; right; now left)). lia. }
      apply (k_fresh s K p o' a'); auto. lia.
    + intros _. exact SP.
    + intros lp [= <-]. unfold done_at. now rewrite G2, Z.eqb_refl.
  - exact O.
  - (* end *)
    apply outs_snoc; [exact O|]. intros D. assert (CV : covered s) by (destruct D; [now right|now left]). specialize (K CV).
    destruct (gs_cur s) as [|p0 t] eqn:EC.
    + unfold emit in EM. rewrite L in EM. destruct (zget (gs_objs s) lp); [|discriminate].
      destruct (close_addrblock _ _ _ _) as [[? ?]|]; [|discriminate]. destruct (zset (gs_objs s) lp _); [|discriminate].
      cbn [finalize_addresses] in EM. destruct (_ >? _); [discriminate|]. injection EM as _ _ <-. apply says_nil.
    + rewrite <- EC in *. assert (NE : gs_cur s <> []) by (rewrite EC; discriminate).
      destruct (last_snoc (gs_cur s) p0 NE) as (l & EL). set (p := List.last (gs_cur s) p0) in *.
      destruct (k_last s K l p EL) as (LP & lo & GL & SL).
      destruct (emit_ok s (gs_objs s) (gs_acs s) (gs_single s) l p lo (gs_idx s - zlen (gs_cur s)) LP EL GL) as (objs' & acs' & b & EQ & SY); try assumption.
      * apply (k_num s K).
      * apply (k_objs s K).
      * intros i II. destruct (k_tab s K NE i II) as (e & G & V). exists e. split; [exact G|]. intros _. exact V.
      * congruence.
      * rewrite EQ in EM. rewrite Z.gtb_ltb in EM. destruct (Z.ltb_spec (gc_room c) (zlen b)) as [|RM]; [discriminate|]. injection EM as <- <- <-.
        apply SY. pose proof room_small. lia.
Qed.

Lemma run_say : gc_addrs c <> [] -> forall n s r out, inv c s -> GenTerm.tinv c s -> (covered s -> cinv s) -> outs_ok (gs_out s) ->
  GenModel.g_run n c s = GDone r out -> outs_ok out.
Proof.
  intros NE. induction n as [|n IH]; intros s r out I TI K O; cbn [GenModel.g_run]; [discriminate|].
  pose proof (step_say s I (GenTerm.t_first c s TI) K O) as S. pose proof (step_inv c s NE I) as SI.
  destruct (g_step c s) as [s'|r' out'|] eqn:GS; [|intros [= _ <-]; exact S|discriminate].
  destruct S as [K' O']. intros H. exact (IH s' r out SI (GenTerm.step_tinv c s s' OK I TI GS) K' O' H).
Qed.
Lemma generate_says n r out : generate n c = GDone r out -> outs_ok out.
Proof.
  assert ((gc_addrs c = [] /\ generate n c = GDone G_OKAY [Frag [] [] true]) \/
          (gc_addrs c <> [] /\ generate n c = GenModel.g_run n c (g_init c))) as [[_ ->]|[NE ->]].
  { unfold generate. destruct (gc_addrs c); [left|right]; split; (reflexivity || discriminate). }
  - intros [= _ <-] k f G _. pose proof (zget_In _ _ _ G) as [<-|[]]. apply says_nil.
  - apply run_say; [exact NE|now apply inv_init|apply GenTerm.tinv_init|intros _; apply cinv_init|].
    intros k f G. cbn in G. apply zget_bound in G. change (zlen (@nil frag)) with 0 in G. lia.
Qed.
End Chain.
