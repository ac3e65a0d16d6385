(** An address block as written by _write_addresses: read by RFC 5444, it has
    the addresses, prefix lengths and TLVs of its members. *)
From Coq Require Import Permutation Sorted.
From Verif Require Import Base BitsModel BufLemmas SplitLemmas WireSpec WriterProofs GenModel GenSpec GenLoop GenTerm GenTlv.

Lemma common_nonneg : forall a b, 0 <= common a b.
Proof. induction a as [|x a IH]; intros [|y b]; cbn [common]; try lia. specialize (IH b). destruct (x =? y); lia. Qed.
Lemma common_le : forall a b, common a b <= zlen a.
Proof.
  induction a as [|x a IH]; intros [|y b]; cbn [common]; rewrite ?zlen_cons; try (pose proof (zlen_nonneg a)); try (change (zlen []) with 0); try lia.
  specialize (IH b). destruct (x =? y); lia.
Qed.
Lemma common_firstn : forall a b k, Z.of_nat k <= common a b -> firstn k a = firstn k b.
Proof.
  induction a as [|x a IH]; intros [|y b] [|k] H; cbn [common firstn] in *; try reflexivity; try lia.
  destruct (Z.eqb_spec x y) as [->|]; [|lia]. f_equal. apply IH. lia.
Qed.
Lemma skipn_rev_firstn {A} (l : list A) k : (k <= length l)%nat -> skipn (length l - k) l = rev (firstn k (rev l)).
Proof. intros K. rewrite firstn_rev, rev_involutive. reflexivity. Qed.
Lemma fold_min (f : memb -> Z) : forall l x, fold_left (fun t m => Z.min t (f m)) l x <= x /\
  (forall m, In m l -> fold_left (fun t m => Z.min t (f m)) l x <= f m) /\
  ((0 <= x) -> (forall m, 0 <= f m) -> 0 <= fold_left (fun t m => Z.min t (f m)) l x).
Proof.
  induction l as [|m l IH]; intros x; cbn [fold_left]; [split; [lia|]; split; [intros ? []|auto]|].
  destruct (IH (Z.min x (f m))) as (A & B & C). split; [lia|]. split.
  - intros m' [<-|I]; [lia|now apply B].
  - intros X F. apply C; [|exact F]. specialize (F m). lia.
Qed.
Lemma zget_map {A B} (f : A -> B) l i : zget (map f l) i = option_map f (zget l i).
Proof.
  unfold zget. destruct (i <? 0); [reflexivity|]. generalize (Z.to_nat i) as k. induction l as [|x l IH]; intros [|k]; cbn; auto.
Qed.
Lemma zlen_map {A B} (f : A -> B) l : zlen (map f l) = zlen l.
Proof. unfold zlen. now rewrite map_length. Qed.
Lemma flat_map_concat {A B} (f : A -> list B) l : flat_map f l = concat (map f l).
Proof. apply flat_map_concat_map. Qed.
Lemma forallb_zero l : forallb (fun x => x =? 0) l = true -> l = repeat 0 (length l).
Proof.
  induction l as [|x l IH]; cbn [forallb repeat length]; [reflexivity|]. intros H. apply andb_true_iff in H as [E H].
  apply Z.eqb_eq in E. subst x. f_equal. now apply IH.
Qed.

Lemma skipn_skipn {A} : forall b a (l : list A), skipn a (skipn b l) = skipn (b + a) l.
Proof. induction b as [|b IH]; intros a [|x l]; cbn [skipn Nat.add]; auto using skipn_nil. Qed.

Definition heads_ok (al head : Z) (ms : list memb) : Prop :=
  zlen ms = 1 \/ (0 <= head < al /\ forall m m', In m ms -> In m' ms ->
     firstn (Z.to_nat head) (ga_bytes (mb_addr m)) = firstn (Z.to_nat head) (ga_bytes (mb_addr m'))).
Definition plens_ok (multi : bool) (ms : list memb) : Prop :=
  multi = true \/ forall m m', In m ms -> In m' ms -> ga_plen (mb_addr m) = ga_plen (mb_addr m').

Lemma block_written al head multi ms base :
  1 <= al <= 16 -> members_ok ms base -> (forall m, In m ms -> addr_ok al (mb_addr m)) ->
  heads_ok al head ms -> plens_ok multi ms ->
  exists b, write_block al head multi ms = Some b /\
    (zlen b < 65536 -> exists wb, b = enc_block wb /\ wf_block al wb /\
       has_addresses al wb (map mb_addr ms) /\ has_tlvs wb (map mb_addr ms)).
Proof.
  intros AL MO AO HO PO. pose proof MO as (NN & ND & IX & _).
  assert (exists m rest, ms = m :: rest) as (m & rest & MS).
  { destruct ms as [|m rest]; [change (zlen []) with 0 in NN; lia|]. eauto. }
  unfold write_block. rewrite MS. cbv iota. rewrite <- MS.
  set (s := ga_bytes (mb_addr m)).
  set (tl0 := fold_left (fun tl x => Z.min tl (common (rev s) (rev (ga_bytes (mb_addr x))))) ms (u8 (al - head - 1))).
  destruct (match rest with [] => (0, 0) | _ => (head, tl0) end) as [hl tl] eqn:HT.
  assert (IM : In m ms) by (rewrite MS; now left).
  destruct (AO m IM) as (SL & SB & SP & _). fold s in SL, SB.
  (* the lengths *)
  assert (LEN : 0 <= hl < al /\ 0 <= tl < al /\ hl + tl <= al /\
    (forall x, In x ms -> firstn (Z.to_nat hl) (ga_bytes (mb_addr x)) = firstn (Z.to_nat hl) s /\
       skipn (Z.to_nat (al - tl)) (ga_bytes (mb_addr x)) = skipn (Z.to_nat (al - tl)) s)).
  { destruct rest as [|m1 rest'].
    - injection HT as <- <-. split; [lia|]. split; [lia|]. split; [lia|]. intros x I. rewrite MS in I. destruct I as [<-|[]]. now split.
    - injection HT as <- <-. destruct HO as [HO|[HL HO]]; [rewrite MS, !zlen_cons in HO; pose proof (zlen_nonneg rest'); lia|].
      destruct (fold_min (fun x => common (rev s) (rev (ga_bytes (mb_addr x)))) ms (u8 (al - head - 1))) as (F1 & F2 & F3).
      fold tl0 in F1, F2, F3.
      rewrite u8_id in F1 by (unfold is_u8; lia). rewrite u8_id in F3 by (unfold is_u8; lia).
      specialize (F3 ltac:(lia) (fun x => common_nonneg _ _)).
      split; [lia|]. split; [lia|]. split; [lia|]. intros x I. split; [exact (HO x m I IM)|].
      destruct (AO x I) as (XL & _). specialize (F2 x I).
      unfold zlen in SL, XL.
      replace (Z.to_nat (al - tl0)) with (length (ga_bytes (mb_addr x)) - Z.to_nat tl0)%nat at 1 by lia.
      replace (Z.to_nat (al - tl0)) with (length s - Z.to_nat tl0)%nat by lia.
      rewrite !skipn_rev_firstn by lia. f_equal. symmetry. apply common_firstn. rewrite Z2Nat.id by lia. exact F2. }
  clear HT tl0. destruct LEN as (HL & TL & HTL & SAME).
  destruct (tlvs_written ms base MO m rest MS) as (tb & TW & TS). rewrite TW.
  set (tail := skipn (Z.to_nat (al - tl)) s).
  set (zt := (tl >? 0) && forallb (fun x => x =? 0) tail).
  set (mid := fun x => firstn (Z.to_nat (al - hl - tl)) (skipn (Z.to_nat hl) (ga_bytes (mb_addr x)))).
  assert (NUM : u8 (mb_index (List.last ms m) - mb_index m + 1) = zlen ms).
  { assert (zget ms 0 = Some m) as G0 by now rewrite MS. pose proof (zget_last ms m ltac:(rewrite MS; discriminate)) as GL.
    rewrite (IX _ _ G0), (IX _ _ GL). replace (base + (zlen ms - 1) - (base + 0) + 1) with (zlen ms) by lia.
    apply u8_id. unfold is_u8. lia. }
  rewrite NUM. eexists. split; [reflexivity|]. intros SZ.
  assert (TZ : zlen tb < 65536).
  { rewrite !zlen_app in SZ. 
    match type of SZ with ?a + (?b + (?c + (?d + (?e + (?f + ?g))))) < _ => 
      assert (0 <= a) by apply zlen_nonneg; assert (0 <= b) by apply zlen_nonneg; assert (0 <= c) by apply zlen_nonneg;
      assert (0 <= d) by apply zlen_nonneg; assert (0 <= e) by apply zlen_nonneg; assert (0 <= f) by apply zlen_nonneg end. lia. }
  clear SZ. destruct (TS TZ) as (ws & TB & WF & PERM).
  assert (TLEN : zlen tail = tl).
  { unfold tail. rewrite zlen_skipn; lia. }
  assert (TBY : all_bytes tail) by (unfold tail; now apply Forall_skipn).
  set (wb := {| wb_head := firstn (Z.to_nat hl) s;
                wb_tail := if tl >? 0 then if zt then TZero tl else TFull tail else TNone;
                wb_mids := map mid ms;
                wb_plen := if multi then PEach (map (fun x => ga_plen (mb_addr x)) ms)
                           else if ga_plen (mb_addr m) =? al * 8 then PNone else PSame (ga_plen (mb_addr m));
                wb_tlvs := ws |}).
  assert (WN : wb_num wb = zlen ms) by (unfold wb_num, wb; cbn [wb_mids]; apply zlen_map).
  assert (HLEN : zlen (firstn (Z.to_nat hl) s) = hl) by (rewrite zlen_firstn; lia).
  assert (TAILB : tail_bytes wb = tail).
  { unfold tail_bytes, wb; cbn [wb_tail]. rewrite Z.gtb_ltb. destruct (Z.ltb_spec 0 tl).
    - destruct zt eqn:ZT; [|reflexivity]. apply andb_true_iff in ZT as [_ ZT]. symmetry. rewrite (forallb_zero _ ZT) at 1. f_equal.
      unfold zlen in TLEN. lia.
    - symmetry. apply zlen_zero. lia. }
  assert (WHOLE : forall x, In x ms -> firstn (Z.to_nat hl) s ++ mid x ++ tail = ga_bytes (mb_addr x)).
  { intros x I. destruct (SAME x I) as [S1 S2]. unfold tail. rewrite <- S1, <- S2. unfold mid.
    set (l := ga_bytes (mb_addr x)).
    rewrite <- (firstn_skipn (Z.to_nat hl) l) at 4. f_equal.
    rewrite <- (firstn_skipn (Z.to_nat (al - hl - tl)) (skipn (Z.to_nat hl) l)) at 2. f_equal.
    rewrite skipn_skipn. f_equal. lia. }
  exists wb. split; [|split; [|split]].
  - (* the bytes *)
    unfold enc_block, enc_addrs, block_flags. rewrite WN. unfold wb; cbn [wb_head wb_tail wb_mids wb_plen wb_tlvs].
    unfold enc_tlvs. rewrite <- TB. fold mid. rewrite flat_map_concat.
    assert (BE : [u8 (zlen tb / 256); Z.land (zlen tb) 255] ++ tb = be16 (zlen tb) ++ tb).
    { unfold be16. rewrite land255, u8_id; [reflexivity|]. unfold is_u8. pose proof (zlen_nonneg tb). split; [apply Z.div_pos; lia|apply Z.div_lt_upper_bound; lia]. }
    rewrite BE.
    assert (HD : (if hl =? 0 then [] else hl :: firstn (Z.to_nat hl) s) = match firstn (Z.to_nat hl) s with [] => [] | h => zlen h :: h end
      /\ (if hl =? 0 then 0 else 128) = match firstn (Z.to_nat hl) s with [] => 0 | _ => 128 end).
    { destruct (Z.eqb_spec hl 0) as [E|NE].
      - rewrite E. now split.
      - destruct (firstn (Z.to_nat hl) s) as [|z l]; [change (zlen []) with 0 in HLEN; lia|].
        split; [|reflexivity]. change (hl :: z :: l = zlen (z :: l) :: z :: l). now rewrite HLEN. }
    destruct HD as [HD1 HD2]. rewrite HD1, HD2. clear HD1 HD2.
    rewrite !Z.gtb_ltb. 
    destruct (Z.ltb_spec 0 tl) as [LT|LT].
    + replace zt with (forallb (fun x => x =? 0) tail) by (unfold zt; rewrite Z.gtb_ltb; destruct (Z.ltb_spec 0 tl); [reflexivity|lia]).
      destruct (forallb _ tail); destruct multi; try destruct (ga_plen (mb_addr m) =? al * 8); rewrite ?TLEN, <- ?app_assoc; reflexivity.
    + destruct multi; [|destruct (_ =? _)]; rewrite <- ?app_assoc; reflexivity.
  - (* well-formed *)
    unfold wf_block. rewrite WN, TAILB. unfold wb; cbn [wb_head wb_tail wb_mids wb_plen wb_tlvs]. rewrite HLEN, TLEN.
    split; [lia|]. split; [now apply Forall_firstn|]. split; [lia|]. split.
    { rewrite Z.gtb_ltb. destruct (Z.ltb_spec 0 tl); [|exact Logic.I]. destruct zt; [lia|]. split; [exact TBY|lia]. }
    split; [lia|]. split.
    { apply Forall_forall. intros y Y. apply in_map_iff in Y as (x & <- & X). destruct (AO x X) as (XL & XB & _). unfold mid.
      split; [now apply Forall_firstn, Forall_skipn|]. rewrite zlen_firstn; [lia|rewrite zlen_skipn; lia]. }
    split.
    { destruct multi.
      - split; [|apply zlen_map]. apply Forall_forall. intros y Y. apply in_map_iff in Y as (x & <- & X).
        destruct (AO x X) as (_ & _ & XP & _). unfold is_u8. lia.
      - destruct (_ =? _); [exact Logic.I|]. unfold is_u8. lia. }
    split; [exact WF|]. now rewrite <- TB.
  - (* addresses *)
    split; [rewrite WN; symmetry; apply zlen_map|]. intros i a G. rewrite zget_map in G.
    destruct (zget ms i) as [x|] eqn:GX; [|discriminate]. injection G as <-.
    assert (IX' : In x ms) by (unfold zget in GX; destruct (i <? 0); [discriminate|]; eapply nth_error_In, GX).
    split.
    + unfold address. unfold wb at 1; cbn [wb_mids]. rewrite zget_map, GX. cbn [option_map]. rewrite TAILB. unfold wb; cbn [wb_head].
      now rewrite WHOLE.
    + unfold prefix_length, wb; cbn [wb_plen]. destruct multi; [now rewrite zget_map, GX|].
      destruct PO as [PO|PO]; [discriminate|]. rewrite (PO x m IX' IM).
      destruct (Z.eqb_spec (ga_plen (mb_addr m)) (al * 8)) as [->|]; [f_equal; lia|reflexivity].
  - (* TLVs *)
    intros i a G. rewrite zget_map in G. destruct (zget ms i) as [x|] eqn:GX; [|discriminate]. injection G as <-.
    rewrite WN. unfold wb; cbn [wb_tlvs]. now apply PERM.
Qed.
