(** The parser of the RFC 5444 reader decodes the wire format of WireSpec.v. *)
From Verif Require Import Base BitsModel BitsProofs BufLemmas SplitLemmas NetaddrModel ReaderModel ReadDispModel ReaderSpec ReaderProofs WireSpec.

(** ** [holds] *)
Lemma holds_app pkt off a b : holds pkt off (a ++ b) -> holds pkt off a /\ holds pkt (off + zlen a) b.
Proof.
  intros (p & q & -> & ->). split.
  - exists p, (b ++ q). split; auto. now rewrite <- app_assoc.
  - exists (p ++ a), q. rewrite zlen_app. split; auto. now rewrite <- !app_assoc.
Qed.
Lemma holds_cons pkt off x l : holds pkt off (x :: l) -> zget pkt off = Some x /\ holds pkt (off + 1) l.
Proof.
  intros (p & q & -> & ->). split.
  - cbn. now apply zget_split.
  - exists (p ++ [x]), q. rewrite zlen_app, zlen_cons, zlen_nil. split; [|lia]. now rewrite <- app_assoc.
Qed.
Lemma holds_bound pkt off l : holds pkt off l -> 0 <= off /\ off + zlen l <= zlen pkt.
Proof. intros (p & q & -> & ->). rewrite !zlen_app. pose proof (zlen_nonneg p). pose proof (zlen_nonneg q). lia. Qed.
Lemma holds_copy pkt off l : holds pkt off l -> copy_out pkt off (length l) = Some l.
Proof. intros (p & q & -> & ->). now apply copy_out_split. Qed.
Lemma holds_slice pkt off l k n : holds pkt off l -> 0 <= k -> 
  holds pkt (off + Z.min k (zlen l)) (firstn n (skipn (Z.to_nat k) l)).
Proof.
  intros H K. rewrite <- (firstn_skipn (Z.to_nat k) l) in H at 1. apply holds_app in H as [_ H].
  replace (zlen (firstn (Z.to_nat k) l)) with (Z.min k (zlen l)) in H by (unfold zlen; rewrite firstn_length; lia).
  rewrite <- (firstn_skipn n (skipn (Z.to_nat k) l)) in H. apply holds_app in H as [H _]. exact H.
Qed.
Lemma zlen_eq {A} (a : list A) : zlen a = Z.of_nat (length a). Proof. reflexivity. Qed.

Lemma get_u8_holds pkt ptr eob x l : holds pkt ptr (x :: l) -> ptr < eob ->
  get_u8 pkt ptr eob OKAY = Ok (x, ptr + 1, OKAY) /\ holds pkt (ptr + 1) l.
Proof.
  intros H L. apply holds_cons in H as [H1 H2]. split; auto. unfold get_u8. cbn [Z.eqb OKAY negb].
  destruct (Z.leb_spec eob ptr); [lia|]. now rewrite H1.
Qed.
Lemma get_u16_holds pkt ptr eob n l : holds pkt ptr (be16 n ++ l) -> ptr + 2 <= eob -> is_u16 n ->
  get_u16 pkt ptr eob OKAY = Ok (n, ptr + 2, OKAY) /\ holds pkt (ptr + 2) l.
Proof.
  intros H L U. cbn [be16 app] in H. unfold get_u16, is_u16 in *.
  destruct (get_u8_holds _ _ eob _ _ H ltac:(lia)) as [-> H1]. cbn [obind].
  destruct (get_u8_holds _ _ eob _ _ H1 ltac:(lia)) as [-> H2]. cbn [obind].
  rewrite lor_shift8.
  - rewrite <- Z.div_mod by lia. replace (ptr + 1 + 1) with (ptr + 2) in * by lia. auto.
  - unfold is_u8. split; [apply Z.div_pos; lia|apply Z.div_lt_upper_bound; lia].
  - unfold is_u8. apply Z.mod_pos_bound. lia.
Qed.

(** ** A parsed TLV before it is prepared for an index *)
Record decodes (pkt : bytes) (n : Z) (w : wtlv) (t : tlv) : Prop := {
  dc_type : t_type t = w_type w;
  dc_ext : t_ext t = match w_ext w with Some x => x | None => 0 end;
  dc_i1 : t_idx1 t = first_index w;
  dc_i2 : t_idx2 t = if n =? 0 then 255 else last_index n w;
  dc_len : t_length t = zlen (value_bytes w) / values n w;
  dc_drop : t_drop t = [];
  dc_val : value_bytes w <> [] -> exists off, t_value t = Some off /\ holds pkt off (value_bytes w) /\
           t_multi t = (w_multi w && negb (values n w =? 1)) /\
           (t_multi t = false -> t_single t = Some off)
}.

Lemma be16_len n : zlen (be16 n) = 2. Proof. reflexivity. Qed.
Lemma tlv_flags_tests w : 
  flag (tlv_flags w) 0x80 = match w_ext w with Some _ => true | None => false end /\
  Z.land (tlv_flags w) 0x60 = match w_index w with WAll => 0 | WOne _ => 0x40 | WRange _ _ => 0x20 end /\
  Z.land (tlv_flags w) 0x18 = match w_value w with None => 0 | Some _ => if w_long w then 0x18 else 0x10 end /\
  flag (tlv_flags w) 0x04 = w_multi w.
Proof.
  destruct w as [ty ext ix lg va mu]. unfold tlv_flags. cbn [w_type w_ext w_index w_long w_value w_multi].
  destruct ext, ix, va, lg, mu; cbn; auto.
Qed.

Lemma flat_map_app {A B} (f : A -> list B) l1 l2 : flat_map f (l1 ++ l2) = flat_map f l1 ++ flat_map f l2.
Proof. induction l1; cbn; auto. rewrite IHl1. now rewrite app_assoc. Qed.


Lemma parse_tlv_decodes pkt n w ptr eob prev : wf_tlv n w -> 0 <= n <= 255 ->
  holds pkt ptr (enc_tlv w) -> ptr + zlen (enc_tlv w) <= eob ->
  exists t, parse_tlv pkt ptr eob n prev = Ok (OKAY, ptr + zlen (enc_tlv w), t) /\ decodes pkt n w t.
Proof.
  intros (W1 & W2 & W3 & W4 & W5) Hn H L.
  destruct (tlv_flags_tests w) as (F1 & F2 & F3 & F4).
  set (v := value_bytes w) in *.
  assert (0 <= zlen v) as Lv by apply zlen_nonneg.
  assert (1 <= values n w <= 255) as Hcnt.
  { unfold values. destruct (Z.eqb_spec n 0) as [->|]; [destruct W5 as [_ ->]; lia|]. destruct (w_multi w); lia. }
  assert (zlen v mod (values n w) = 0) as Hmod.
  { destruct (Z.eqb_spec n 0) as [->|]; [|tauto]. unfold values. destruct W5 as [_ ->]. apply Z.mod_1_r. }
  unfold enc_tlv in *. cbn [app] in *. unfold parse_tlv.
  rewrite !zlen_cons, !zlen_app in *.
  assert (0 <= zlen (opt1 (w_ext w))) as Le by apply zlen_nonneg.
  set (ixb := match w_index w with WAll => [] | WOne i => [i] | WRange a b => [a; b] end) in *.
  assert (0 <= zlen ixb) as Li by apply zlen_nonneg.
  set (vb := match w_value w with None => [] | Some v => _ end) in *.
  assert (0 <= zlen vb) as Lvb by apply zlen_nonneg.
  destruct (get_u8_holds _ _ eob _ _ H ltac:(lia)) as [-> H1]. cbn [obind].
  destruct (get_u8_holds _ _ eob _ _ H1 ltac:(lia)) as [-> H2]. cbn [obind].
  rewrite F1, F2, F3, F4. replace (ptr + 1 + 1) with (ptr + 2) in * by lia.
  assert ((if match w_ext w with Some _ => true | None => false end then get_u8 pkt (ptr + 2) eob OKAY else Ok (0, ptr + 2, OKAY))
          = Ok (match w_ext w with Some x => x | None => 0 end, ptr + 2 + zlen (opt1 (w_ext w)), OKAY) /\
          holds pkt (ptr + 2 + zlen (opt1 (w_ext w))) (ixb ++ vb)) as [-> H3].
  { destruct (w_ext w) as [x|]; cbn [opt1 app] in *.
    - destruct (get_u8_holds _ _ eob _ _ H2) as [-> H3]; [rewrite zlen_cons, zlen_nil in *; lia|].
      change (zlen [x]) with 1. auto.
    - change (zlen (@nil Z)) with 0. rewrite Z.add_0_r. auto. }
  cbn [obind]. set (p3 := ptr + 2 + zlen (opt1 (w_ext w))) in *.
  clear H H1 H2.
  match goal with |- context [obind (if match w_index w with _ => _ end =? 0 then _ else _)] => idtac end.
  set (i2 := if n =? 0 then 255 else last_index n w).
  match goal with |- context [obind ?A _] =>
    assert (A = Ok (first_index w, i2, p3 + zlen ixb, OKAY, false) /\ holds pkt (p3 + zlen ixb) vb) as [-> H4] end.
  { apply holds_app in H3 as [H3 H4]. split; auto. unfold i2, ixb, first_index, last_index in *.
    destruct (w_index w) as [|i|a b]; cbn [Z.eqb Pos.eqb].
    - change (zlen (@nil Z)) with 0. rewrite Z.add_0_r. repeat f_equal. destruct (Z.eqb_spec n 0) as [->|]; [reflexivity|].
      unfold u8. apply Z.mod_small. lia.
    - destruct (get_u8_holds _ _ eob _ _ H3) as [-> H5]; [rewrite zlen_cons, zlen_nil in *; lia|]. cbn [obind].
      change (zlen [i]) with 1. destruct (Z.eqb_spec n 0); [destruct W5; discriminate|]. auto.
    - change (zlen [a; b]) with 2 in *.
      destruct (get_u8_holds _ _ eob _ _ H3) as [-> H5]; [lia|]. cbn [obind].
      destruct (get_u8_holds _ _ eob _ _ H5) as [-> H6]; [lia|]. cbn [obind].
      destruct (Z.eqb_spec n 0); [destruct W5; discriminate|].
      replace (p3 + 2) with (p3 + 1 + 1) by lia. auto. }
  cbn [obind]. clear H3. set (p4 := p3 + zlen ixb) in *.
  assert ((n >? 0) && ((n <=? first_index w) || (n <=? i2)) = false) as ->.
  { destruct (Z.gtb_spec n 0); cbn [andb]; auto. unfold i2. destruct (Z.eqb_spec n 0); [lia|].
    destruct (Z.leb_spec n (first_index w)), (Z.leb_spec n (last_index n w)); try lia; auto. }
  match goal with |- context [obind ?A _] =>
    assert (A = Ok (zlen v, p4 + (zlen vb - zlen v), OKAY, false) /\ holds pkt (p4 + (zlen vb - zlen v)) v /\ zlen v <= zlen vb) as (-> & H5 & L5) end.
  { unfold vb, v, value_bytes in *. destruct (w_value w) as [v'|]; cbn [Z.eqb Pos.eqb].
    - destruct (w_long w); cbn [Z.eqb Pos.eqb].
      + destruct (get_u16_holds _ _ eob _ _ H4) as [-> H5]; [|unfold is_u16; lia|].
        { rewrite zlen_app, be16_len in *. lia. }
        cbn [obind]. rewrite zlen_app, be16_len.
        replace (p4 + (2 + zlen v' - zlen v')) with (p4 + 2) by lia. split; auto. split; auto. lia.
      + cbn [app] in *. rewrite zlen_cons in *.
        destruct (get_u8_holds _ _ eob _ _ H4 ltac:(lia)) as [-> H5].
        cbn [obind]. replace (p4 + (zlen v' + 1 - zlen v')) with (p4 + 1) by lia. split; auto. split; auto. lia.
    - cbn [app]. change (zlen (@nil Z)) with 0. replace (p4 + (0 - 0)) with p4 by lia. split; auto with zarith. }
  cbn [obind]. set (p5 := p4 + (zlen vb - zlen v)) in *.
  destruct (Z.gtb_spec (p5 + zlen v) eob); [exfalso; lia|].
  cbn [negb Z.eqb OKAY].
  replace (ptr + (zlen (opt1 (w_ext w)) + (zlen ixb + zlen vb) + 1 + 1)) with (p5 + zlen v) by lia.
  destruct (Z.eqb_spec (zlen v) 0) as [E0|E0].
  { eexists. split; [rewrite E0, Z.add_0_r; reflexivity|]. constructor; cbn; auto; fold v.
    - rewrite E0. now rewrite Z.div_0_l by lia.
    - intros NE. apply zlen_zero in E0. contradiction. }
  assert (u8 (i2 - first_index w + 1) = if n =? 0 then 0 else last_index n w - first_index w + 1) as EC.
  { unfold i2, u8. destruct (Z.eqb_spec n 0) as [->|].
    - destruct W5 as [E5 _]. unfold first_index. rewrite E5. reflexivity.
    - apply Z.mod_small. lia. }
  rewrite EC. clear EC.
  set (c := if n =? 0 then 0 else last_index n w - first_index w + 1).
  assert (w_multi w = true -> c = values n w /\ n <> 0) as Hc.
  { intros M. unfold c, values. rewrite M. destruct (Z.eqb_spec n 0); [destruct W5; congruence|]. auto. }
  replace (if c =? 1 then false else w_multi w) with (w_multi w && negb (values n w =? 1)).
  2:{ destruct (w_multi w); cbn [andb].
      - destruct (Hc eq_refl) as [-> _]. destruct (values n w =? 1); auto.
      - now destruct (c =? 1). }
  destruct (w_multi w && negb (values n w =? 1)) eqn:EM; cbn [negb].
  - apply andb_prop in EM as [EM1 EM2]. destruct (Hc EM1) as [-> _].
    destruct (Z.eqb_spec (values n w) 0); [lia|]. rewrite Hmod. cbn [negb Z.eqb].
    eexists. split; [reflexivity|]. constructor; cbn; auto; fold v.
    intros _. exists p5. rewrite EM1, EM2. split; auto. split; auto. split; auto. discriminate.
  - eexists. split; [reflexivity|]. constructor; cbn; auto; fold v.
    + apply andb_false_iff in EM as [EM|EM].
      * unfold values. rewrite EM. now rewrite Z.div_1_r.
      * destruct (Z.eqb_spec (values n w) 1) as [->|]; [now rewrite Z.div_1_r|discriminate].
    + intros _. exists p5. rewrite EM. auto.
Qed.

(** ** TLV blocks *)
Lemma enc_tlv_len w : 2 <= zlen (enc_tlv w).
Proof.
  unfold enc_tlv. cbn [app]. rewrite !zlen_cons. pose proof (zlen_nonneg (opt1 (w_ext w) ++ match w_index w with
    WAll => [] | WOne i => [i] | WRange a b => [a; b] end ++ match w_value w with None => [] | Some v => (if w_long w then be16 (zlen v) else [zlen v]) ++ v end)). lia.
Qed.
Definition insert_all (ts acc : list tlv) : list tlv := fold_left (fun l t => tlv_insert t l) ts acc.

Section A.
Context (alloc : nat -> bool) (pkt : bytes).
Hypothesis A : forall n, alloc n = true.

Lemma tlvblock_loop_decodes n eob end_ ws : 0 <= n <= 255 -> end_ <= eob -> Forall (wf_tlv n) ws ->
  forall fuel ptr prev acc m, holds pkt ptr (flat_map enc_tlv ws) -> ptr + zlen (flat_map enc_tlv ws) = end_ ->
  zlen (flat_map enc_tlv ws) < Z.of_nat fuel ->
  exists ts m', tlvblock_loop alloc pkt fuel ptr end_ eob n prev acc m = Ok (OKAY, end_, insert_all ts acc, m') /\
    Forall2 (decodes pkt n) ws ts /\ m_addr m' = m_addr m.
Proof.
  intros Hn He F. induction F as [|w ws Hw _ IH]; intros fuel ptr prev acc m H E L; cbn [flat_map] in *.
  - change (zlen (@nil Z)) with 0 in *. exists [], m. split; auto. destruct fuel; cbn [tlvblock_loop];
      (destruct (Z.leb_spec end_ ptr); [|lia]); rewrite <- E, Z.add_0_r; reflexivity.
  - rewrite zlen_app in *. pose proof (enc_tlv_len w) as X1. pose proof (zlen_nonneg (flat_map enc_tlv ws)) as X2.
    destruct fuel as [|fuel]; [lia|]. cbn [tlvblock_loop]. destruct (Z.leb_spec end_ ptr); [lia|].
    apply holds_app in H as [H1 H2].
    destruct (parse_tlv_decodes pkt n w ptr eob prev Hw Hn H1 ltac:(lia)) as (t & -> & D). cbn [obind].
    change (negb (OKAY =? OKAY)) with false. cbn iota. rewrite A. cbn [negb].
    destruct (IH fuel _ (t_single t) (tlv_insert t acc) (m_add_tlv m) H2 ltac:(lia) ltac:(lia)) as (ts & m' & -> & D2 & Mm).
    exists (t :: ts), m'. split; auto.
Qed.

Lemma parse_tlvblock_decodes n eob ws ptr m : 0 <= n <= 255 -> Forall (wf_tlv n) ws ->
  zlen (flat_map enc_tlv ws) < 65536 -> holds pkt ptr (enc_tlvs ws) -> ptr + zlen (enc_tlvs ws) <= eob ->
  exists ts m', parse_tlvblock alloc pkt ptr eob n m = Ok (OKAY, ptr + zlen (enc_tlvs ws), insert_all ts [], m') /\
    Forall2 (decodes pkt n) ws ts /\ m_addr m' = m_addr m.
Proof.
  intros Hn F L H E. unfold enc_tlvs in *. rewrite zlen_app, be16_len in *. unfold parse_tlvblock.
  pose proof (zlen_nonneg (flat_map enc_tlv ws)). pose proof (holds_bound _ _ _ H) as HB. rewrite zlen_app, be16_len in HB.
  destruct (get_u16_holds _ _ eob _ _ H) as [-> H2]; [lia|unfold is_u16; lia|]. cbn [obind].
  destruct (Z.gtb_spec (ptr + 2 + zlen (flat_map enc_tlv ws)) eob); [lia|].
  destruct (tlvblock_loop_decodes n eob (ptr + 2 + zlen (flat_map enc_tlv ws)) ws Hn ltac:(lia) F (S (length pkt)) (ptr + 2) None [] m H2 eq_refl)
    as (ts & m' & -> & D & Mm).
  { unfold zlen in *. lia. }
  cbn [obind]. change (negb (OKAY =? OKAY)) with false. cbn iota. exists ts, m'. rewrite Z.add_assoc. auto.
Qed.

(** ** Address blocks *)
Record decodes_addrs (al off : Z) (b : wblock) (ab : ablock) : Prop := {
  da_num : ab_num ab = wb_num b;
  da_ms : ab_mid_start ab = zlen (wb_head b);
  da_ml : ab_mid_len ab = al - zlen (wb_head b) - zlen (tail_bytes b);
  da_src : holds pkt (ab_mid_src ab) (concat (wb_mids b));
  da_plen : match wb_plen b with
            | PNone => ab_prefixes ab = None /\ ab_plen ab = 8 * al
            | PSame p => ab_prefixes ab = None /\ ab_plen ab = p
            | PEach ps => exists o, ab_prefixes ab = Some o /\ holds pkt o ps
            end;
  da_ptr : ab_ptr ab = off;
  da_addr : exists x y, ab_addr ab = wb_head b ++ x ++ tail_bytes b ++ y /\
      zlen x = al - zlen (wb_head b) - zlen (tail_bytes b) /\ zlen (ab_addr ab) = 16
}.

Lemma block_flags_tests b :
  flag (block_flags b) 0x80 = match wb_head b with [] => false | _ => true end /\
  Z.land (block_flags b) 0x60 = match wb_tail b with TNone => 0 | TZero _ => 0x20 | TFull _ => 0x40 end /\
  Z.land (block_flags b) 0x18 = match wb_plen b with PNone => 0 | PSame _ => 0x10 | PEach _ => 0x08 end.
Proof. unfold block_flags. destruct (wb_head b), (wb_tail b), (wb_plen b); cbn; auto. Qed.

Lemma zlen_repeat {X} (x : X) n : 0 <= n -> zlen (repeat x (Z.to_nat n)) = n.
Proof. intros. unfold zlen. rewrite repeat_length. lia. Qed.
Lemma zeros_split a b : 0 <= a -> 0 <= b -> repeat 0 (Z.to_nat (a + b)) = repeat 0 (Z.to_nat a) ++ repeat 0 (Z.to_nat b).
Proof. intros. rewrite Z2Nat.inj_add by lia. apply repeat_app. Qed.
Lemma zget_In {X} (l : list X) i x : zget l i = Some x -> In x l.
Proof. unfold zget. destruct (_ <? _); [discriminate|]. apply nth_error_In. Qed.
Lemma concat_len (l : list bytes) k : Forall (fun m => zlen m = k) l -> zlen (concat l) = k * zlen l.
Proof.
  intros F. induction F as [|m l H _ IH]; cbn [concat]; [change (zlen (@nil Z)) with 0; change (zlen (@nil bytes)) with 0; lia|].
  rewrite zlen_app, zlen_cons, IH. lia.
Qed.

Lemma parse_addrblock_decodes al b ptr eob : wf_block al b -> 1 <= al <= 16 ->
  holds pkt ptr (enc_addrs b) -> ptr + zlen (enc_addrs b) <= eob ->
  exists ab, parse_addrblock pkt al ptr eob = Ok (OKAY, ptr + zlen (enc_addrs b), Some ab) /\ decodes_addrs al ptr b ab /\
    ab_tlvs ab = [] /\ ab_drop ab = [].
Proof.
  intros (W1 & W2 & W3 & W4 & W5 & W6 & W7 & _) Hal H L.
  destruct (block_flags_tests b) as (F1 & F2 & F3).
  unfold enc_addrs in *. cbn [app] in *. rewrite !zlen_cons, !zlen_app in L |- *.
  set (hb := match wb_head b with [] => [] | h => zlen h :: h end) in *.
  set (tb := match wb_tail b with TNone => [] | TZero n => [n] | TFull t => zlen t :: t end) in *.
  set (pb := match wb_plen b with PNone => [] | PSame p => [p] | PEach ps => ps end) in *.
  set (hl := zlen (wb_head b)) in *. set (tl := zlen (tail_bytes b)) in *.
  assert (0 <= hl) as Lh by apply zlen_nonneg. assert (0 <= tl) as Lt by apply zlen_nonneg.
  assert (0 <= zlen hb) as Lhb by apply zlen_nonneg. assert (0 <= zlen tb) as Ltb by apply zlen_nonneg.
  assert (0 <= zlen pb) as Lpb by apply zlen_nonneg.
  assert (zlen (concat (wb_mids b)) = (al - hl - tl) * wb_num b) as Lm.
  { apply concat_len. eapply Forall_impl; [|exact W6]. cbn. tauto. }
  assert (0 <= (al - hl - tl) * wb_num b) as Lm' by nia.
  unfold parse_addrblock.
  destruct (get_u8_holds _ _ eob _ _ H ltac:(lia)) as [-> H1]. cbn [obind].
  destruct (Z.eqb_spec (wb_num b) 0); [lia|].
  destruct (get_u8_holds _ _ eob _ _ H1 ltac:(lia)) as [-> H2]. cbn [obind]. clear H H1.
  replace (ptr + 1 + 1) with (ptr + 2) in * by lia.
  rewrite F1, F2, F3.
  (* head *)
  apply holds_app in H2 as [H2 H3].
  match goal with |- context [obind ?X _] =>
    assert (X = Ok (OKAY, ptr + 2 + zlen hb, OKAY, hl, al - hl, wb_head b ++ repeat 0 (Z.to_nat (16 - hl)))) as -> end.
  { unfold hb, hl in *. destruct (wb_head b) as [|x0 h0] eqn:EH.
    - change (zlen (@nil Z)) with 0. rewrite Z.add_0_r, Z.sub_0_r. reflexivity.
    - set (h := x0 :: h0) in *. rewrite zlen_cons in *.
      destruct (get_u8_holds _ _ eob _ _ H2 ltac:(lia)) as [-> H4]. cbn [obind].
      assert (1 <= zlen h) by (unfold h; rewrite zlen_cons; pose proof (zlen_nonneg h0); lia).
      unfold RFC5444_MAX_ADDRLEN.
      destruct (Z.ltb_spec (zlen h) 1); [lia|]. destruct (Z.leb_spec 16 (zlen h)); [lia|]. destruct (Z.leb_spec al (zlen h)); [lia|].
      cbn [orb]. destruct (Z.gtb_spec (ptr + 2 + 1 + zlen h) eob); [lia|].
      replace (Z.to_nat (zlen h)) with (length h) by (unfold zlen; lia). rewrite (holds_copy _ _ _ H4).
      assert (copy_in zero16 0 h = Some (h ++ repeat 0 (Z.to_nat (16 - zlen h)))) as ->.
      { replace zero16 with ([] ++ repeat 0 (Z.to_nat (zlen h)) ++ repeat 0 (Z.to_nat (16 - zlen h))).
        - rewrite copy_in_split; [reflexivity|reflexivity|]. apply zlen_repeat. lia.
        - cbn [app]. rewrite <- zeros_split by lia. replace (zlen h + (16 - zlen h)) with 16 by lia. reflexivity. }
      replace (u8 (al - zlen h)) with (al - zlen h) by (unfold u8; rewrite Z.mod_small; lia).
      replace (ptr + 2 + 1 + zlen h) with (ptr + 2 + (zlen h + 1)) by lia. reflexivity. }
  cbn [obind]. change (negb (OKAY =? OKAY)) with false. cbn iota. clear H2.
  set (p2 := ptr + 2 + zlen hb) in *.
  (* tail *)
  apply holds_app in H3 as [H3 H4].
  match goal with |- context [obind ?X _] =>
    assert (exists y, X = Ok (OKAY, p2 + zlen tb, OKAY, al - hl - tl, wb_head b ++ repeat 0 (Z.to_nat (al - hl - tl)) ++ tail_bytes b ++ y) /\ zlen y = 16 - al)
      as (y & -> & Ly) end.
  { assert (repeat 0 (Z.to_nat (16 - hl)) = repeat 0 (Z.to_nat (al - hl - tl)) ++ repeat 0 (Z.to_nat tl) ++ repeat 0 (Z.to_nat (16 - al))) as ER.
    { rewrite <- !zeros_split by lia. f_equal. lia. }
    exists (repeat 0 (Z.to_nat (16 - al))). split; [|apply zlen_repeat; lia].
    rewrite ER. unfold tb, tl, tail_bytes in *. destruct (wb_tail b) as [|z|t]; cbn [Z.eqb Pos.eqb negb].
    - change (zlen (@nil Z)) with 0. rewrite Z.add_0_r, Z.sub_0_r. reflexivity.
    - rewrite zlen_repeat in * by lia. change (zlen [z]) with 1 in *.
      destruct (get_u8_holds _ _ eob _ _ H3 ltac:(lia)) as [-> _]. cbn [obind].
      replace (u8 (al - hl - z)) with (al - hl - z) by (unfold u8; rewrite Z.mod_small; lia). reflexivity.
    - rewrite zlen_cons in *. destruct (get_u8_holds _ _ eob _ _ H3 ltac:(lia)) as [-> H5]. cbn [obind].
      unfold RFC5444_MAX_ADDRLEN. destruct W4 as [_ W4].
      destruct (Z.ltb_spec (zlen t) 1); [lia|]. destruct (Z.leb_spec 16 (zlen t)); [lia|]. destruct (Z.leb_spec al (zlen t)); [lia|].
      cbn [orb]. destruct (Z.gtb_spec (p2 + 1 + zlen t) eob); [lia|].
      replace (Z.to_nat (zlen t)) with (length t) by (unfold zlen; lia). rewrite (holds_copy _ _ _ H5).
      replace (length t) with (Z.to_nat (zlen t)) by (unfold zlen; lia).
      rewrite (app_assoc (wb_head b)). rewrite copy_in_split.
      + rewrite <- app_assoc. replace (u8 (al - hl - zlen t)) with (al - hl - zlen t) by (unfold u8; rewrite Z.mod_small; lia).
        replace (p2 + 1 + zlen t) with (p2 + (zlen t + 1)) by lia. reflexivity.
      + rewrite zlen_app, zlen_repeat by lia. fold hl. lia.
      + apply zlen_repeat. lia. }
  cbn [obind]. change (negb (OKAY =? OKAY)) with false. cbn iota. clear H3.
  set (p3 := p2 + zlen tb) in *.
  apply holds_app in H4 as [H4 H5]. rewrite Lm in *.
  set (p4 := p3 + (al - hl - tl) * wb_num b) in *.
  destruct (Z.gtb_spec p4 eob); [lia|].
  match goal with |- context [obind ?X _] =>
    assert (exists plen pre, X = Ok (OKAY, p4 + zlen pb, plen, pre) /\
      match wb_plen b with
            | PNone => pre = None /\ plen = 8 * al
            | PSame p => pre = None /\ plen = p
            | PEach ps => exists o, pre = Some o /\ holds pkt o ps
            end) as (plen & pre & -> & HP) end.
  { unfold pb in *. destruct (wb_plen b) as [|p|ps]; cbn [Z.eqb Pos.eqb].
    - change (zlen (@nil Z)) with 0. rewrite Z.add_0_r. do 2 eexists. split; [reflexivity|]. split; auto.
      unfold u8. rewrite Z.mod_small by lia. lia.
    - apply holds_cons in H5 as [-> _]. change (zlen [p]) with 1. do 2 eexists. split; [reflexivity|]. auto.
    - destruct W7 as [_ ->]. do 2 eexists. split; [reflexivity|]. eauto. }
  cbn [obind]. change (negb (OKAY =? OKAY)) with false. cbn iota.
  destruct (Z.gtb_spec (p4 + zlen pb) eob); [lia|].
  eexists. split; [f_equal; f_equal; f_equal; lia|]. split; [|split; reflexivity].
  constructor; cbn; auto.
  exists (repeat 0 (Z.to_nat (al - hl - tl))), y. split; [reflexivity|]. rewrite !zlen_app, !zlen_repeat by lia. fold hl tl. lia.
Qed.

(** address number [i] as it is put together for the consumers *)
Lemma nth_mid k (mids : list bytes) off : Forall (fun m => zlen m = k) mids -> holds pkt off (concat mids) ->
  forall i m, zget mids i = Some m -> holds pkt (off + k * i) m.
Proof.
  intros F. revert off. induction F as [|x l Hx _ IH]; intros off H i m G.
  - apply zget_bound in G. change (zlen (@nil bytes)) with 0 in G. lia.
  - cbn [concat] in H. apply holds_app in H as [H1 H2]. pose proof (zget_bound _ _ _ G) as R.
    destruct (Z.eq_dec i 0) as [->|].
    + change (Some x = Some m) in G. injection G as ->. now rewrite Z.mul_0_r, Z.add_0_r.
    + rewrite Hx in H2. assert (zget l (i - 1) = Some m) as G'.
      { change (x :: l) with ([x] ++ l) in G. rewrite zget_app in G. change (zlen [x]) with 1 in G.
        destruct (Z.ltb_spec i 1); [lia|exact G]. }
      replace (off + k * i) with (off + k + k * (i - 1)) by lia. eapply IH; eauto.
Qed.

Lemma assemble_decodes al off b ab i : wf_block al b -> 1 <= al <= 16 -> decodes_addrs al off b ab ->
  0 <= i < wb_num b -> exists addr a p r na, assemble_addr pkt al ab i = Ok (addr, na) /\
    address b i = Some a /\ prefix_length al b i = Some p /\ from_binary_prefix a 0 p = Some (r, na) /\
    (forall tlvs drop, decodes_addrs al off b (ab_upd ab addr tlvs drop)).
Proof.
  intros (W1 & W2 & W3 & W4 & W5 & W6 & W7 & _) Hal [D1 D2 D3 D4 D5 D6 (x & y & D7 & D8 & D9)] Hi.
  unfold assemble_addr, address. unfold wb_num in *.
  destruct (zget_Some (wb_mids b) i Hi) as [m G]. rewrite G.
  assert (zlen m = al - zlen (wb_head b) - zlen (tail_bytes b)) as Lm.
  { rewrite Forall_forall in W6. apply W6. eapply zget_In; eauto. }
  assert (holds pkt (ab_mid_src ab + ab_mid_len ab * i) m) as HM.
  { apply (nth_mid (ab_mid_len ab) (wb_mids b)); auto. eapply Forall_impl; [|exact W6]. cbn. intros ? [_ ?]. lia. }
  rewrite D3 in *. rewrite <- Lm in *. replace (Z.to_nat (zlen m)) with (length m) by (unfold zlen; lia).
  rewrite (holds_copy _ _ _ HM).
  rewrite D7, copy_in_split by (auto; lia).
  assert (firstn (Z.to_nat al) (wb_head b ++ m ++ tail_bytes b ++ y) = wb_head b ++ m ++ tail_bytes b) as EF.
  { rewrite (app_assoc m), (app_assoc (wb_head b)). rewrite firstn_app.
    replace (Z.to_nat al) with (length (wb_head b ++ m ++ tail_bytes b)) by (rewrite !app_length; unfold zlen in *; lia).
    rewrite firstn_all, Nat.sub_diag. cbn. now rewrite app_nil_r. }
  rewrite EF.
  match goal with |- context [obind ?X _] => assert (exists p, X = Ok p /\ prefix_length al b i = Some p) as (p & -> & EP) end.
  { unfold prefix_length. destruct (wb_plen b) as [|q|ps].
    - destruct D5 as [-> ->]. eauto.
    - destruct D5 as [-> ->]. eauto.
    - destruct D5 as (o & -> & Ho). destruct W7 as [_ W7]. destruct (zget_Some ps i ltac:(lia)) as [q Gq].
      exists q. rewrite Gq. split; auto. destruct Ho as (u & v & -> & ->).
      rewrite zget_app. destruct (Z.ltb_spec (zlen u + i) (zlen u)); [lia|].
      replace (zlen u + i - zlen u) with i by lia. rewrite zget_app. destruct (Z.ltb_spec i (zlen ps)); [|lia]. now rewrite Gq. }
  cbn [obind]. 
  destruct (from_binary_prefix_ok (wb_head b ++ m ++ tail_bytes b) 0 p) as (r & na & EB).
  { rewrite !zlen_app. lia. }
  rewrite EB. do 5 eexists. split; [reflexivity|]. split; [reflexivity|]. split; [exact EP|]. split; [exact EB|].
  intros. constructor; cbn; auto; try lia.
  exists m, y. split; auto. split; [lia|]. rewrite D7, !zlen_app in D9. rewrite !zlen_app. lia.
Qed.
End A.

(** ** Messages *)
Fixpoint decodes_blocks (pkt : bytes) (al off : Z) (bs : list wblock) (abs : list ablock) : Prop :=
  match bs, abs with
  | [], [] => True
  | b :: bs', ab :: abs' =>
      decodes_addrs pkt al off b ab /\ ab_drop ab = [] /\
      (exists ts, Forall2 (decodes pkt (wb_num b)) (wb_tlvs b) ts /\ ab_tlvs ab = insert_all ts []) /\
      decodes_blocks pkt al (off + zlen (enc_block b)) bs' abs'
  | _, _ => False
  end.
Lemma decodes_addrs_with pkt al off b ab tl s : decodes_addrs pkt al off b ab -> decodes_addrs pkt al off b (ab_with_tlvs ab tl s).
Proof. intros [D1 D2 D3 D4 D5 D6 D7]. constructor; auto. Qed.

Section M.
Context (alloc : nat -> bool) (pkt : bytes).
Hypothesis A : forall n, alloc n = true.

Lemma addrblocks_loop_decodes al end_ bs : 1 <= al <= 16 -> Forall (wf_block al) bs ->
  forall fuel ptr acc m, holds pkt ptr (flat_map enc_block bs) -> ptr + zlen (flat_map enc_block bs) = end_ ->
  zlen (flat_map enc_block bs) < Z.of_nat fuel ->
  exists abs m', addrblocks_loop alloc pkt fuel al ptr end_ acc m = Ok (OKAY, end_, acc ++ abs, m') /\
    decodes_blocks pkt al ptr bs abs.
Proof.
  intros Hal F. induction F as [|b bs Hb _ IH]; intros fuel ptr acc m H E L; cbn [flat_map] in *.
  - change (zlen (@nil Z)) with 0 in *. exists [], m. split; [|exact I]. rewrite app_nil_r. destruct fuel; cbn [addrblocks_loop];
      (destruct (Z.leb_spec end_ ptr); [|lia]); rewrite <- E, Z.add_0_r; reflexivity.
  - unfold enc_block at 1 in H. unfold enc_block at 1 in E. unfold enc_block at 1 in L.
    rewrite !zlen_app in *. rewrite <- app_assoc in H.
    pose proof (zlen_nonneg (flat_map enc_block bs)) as X1.
    assert (2 <= zlen (enc_addrs b)) as X2.
    { unfold enc_addrs. cbn [app]. rewrite !zlen_cons. match goal with |- _ <= zlen ?l + _ + _ => pose proof (zlen_nonneg l) end. lia. }
    assert (2 <= zlen (enc_tlvs (wb_tlvs b))) as X3.
    { unfold enc_tlvs. rewrite zlen_app, be16_len. pose proof (zlen_nonneg (flat_map enc_tlv (wb_tlvs b))). lia. }
    destruct fuel as [|fuel]; [lia|]. cbn [addrblocks_loop]. destruct (Z.leb_spec end_ ptr); [lia|].
    rewrite A. cbn [negb]. apply holds_app in H as [H1 H2]. apply holds_app in H2 as [H2 H3].
    destruct (parse_addrblock_decodes pkt al b ptr end_ Hb Hal H1 ltac:(lia)) as (ab & -> & D & ET & ED). cbn [obind].
    assert (1 <= wb_num b <= 255) as Hnum by apply Hb.
    rewrite (da_num _ _ _ _ _ D).
    destruct Hb as (_ & _ & _ & _ & _ & _ & _ & Hb1 & Hb2).
    destruct (parse_tlvblock_decodes alloc pkt A (wb_num b) end_ (wb_tlvs b) (ptr + zlen (enc_addrs b)) (m_add_addr m) ltac:(lia) Hb1 Hb2 H2 ltac:(lia))
      as (ts & m1 & -> & D2 & _). cbn [obind]. change (negb (OKAY =? OKAY)) with false. cbn iota.
    match goal with |- context [acc ++ [?ab']] => set (ab1 := ab') end.
    destruct (IH fuel _ (acc ++ [ab1]) m1 H3 ltac:(lia) ltac:(lia)) as (abs & m2 & -> & DB).
    exists (ab1 :: abs), m2. split; [rewrite <- app_assoc; reflexivity|].
    cbn [decodes_blocks]. split; [apply decodes_addrs_with; exact D|]. split; [exact ED|]. split; [eauto|].
    unfold enc_block at 1. rewrite zlen_app, Z.add_assoc. exact DB.
Qed.

Lemma msg_flags_tests m : 1 <= wm_addrlen m <= 16 ->
  let f := msg_flags m + (wm_addrlen m - 1) in
  Z.land f 0x0f + 1 = wm_addrlen m /\ Z.land f 0xf0 = msg_flags m /\
  flag f 0x80 = match wm_orig m with Some _ => true | None => false end /\
  flag f 0x40 = match wm_hoplimit m with Some _ => true | None => false end /\
  flag f 0x20 = match wm_hopcount m with Some _ => true | None => false end /\
  flag f 0x10 = match wm_seqno m with Some _ => true | None => false end.
Proof.
  intros H. unfold msg_flags, has. set (al := wm_addrlen m) in *. clearbody al.
  assert (al = 1 \/ al = 2 \/ al = 3 \/ al = 4 \/ al = 5 \/ al = 6 \/ al = 7 \/ al = 8 \/ al = 9 \/ al = 10 \/ al = 11 \/ al = 12 \/
     al = 13 \/ al = 14 \/ al = 15 \/ al = 16) as X by lia. clear H.
  destruct (wm_orig m), (wm_hoplimit m), (wm_hopcount m), (wm_seqno m);
    repeat destruct X as [->|X]; subst; cbn; auto 10.
Qed.

Lemma parse_msgheader_decodes M start eob : wf_msg M -> holds pkt start (enc_msg M) -> start + msg_size M <= eob ->
  exists p h, parse_msgheader pkt start eob = Ok (OKAY, p, h) /\ header_of M h /\
    start <= p /\ holds pkt p (enc_tlvs (wm_tlvs M) ++ flat_map enc_block (wm_blocks M)) /\
    p + zlen (enc_tlvs (wm_tlvs M) ++ flat_map enc_block (wm_blocks M)) = start + msg_size M.
Proof.
  intros (W1 & W2 & W3 & W4 & W5 & W6 & _ & _ & W9) H L.
  destruct (msg_flags_tests M W2) as (F1 & F2 & F3 & F4 & F5 & F6).
  unfold enc_msg in H. cbn [app] in H. unfold parse_msgheader.
  set (fl := msg_flags M + (wm_addrlen M - 1)) in *.
  set (body := enc_tlvs (wm_tlvs M) ++ flat_map enc_block (wm_blocks M)) in *.
  assert (zlen (enc_msg_rest M) = zlen (match wm_orig M with Some a => a | None => [] end) + zlen (opt1 (wm_hoplimit M)) +
    zlen (opt1 (wm_hopcount M)) + zlen (match wm_seqno M with Some s => be16 s | None => [] end) + zlen body) as LR.
  { unfold enc_msg_rest. fold body. rewrite !zlen_app. lia. }
  assert (0 <= zlen body) as Lb by apply zlen_nonneg.
  assert (0 <= zlen (enc_msg_rest M)) as Lr by apply zlen_nonneg.
  unfold msg_size in L, W9.
  destruct (get_u8_holds _ _ eob _ _ H ltac:(lia)) as [-> H1]. cbn [obind].
  destruct (get_u8_holds _ _ eob _ _ H1 ltac:(lia)) as [-> H2]. cbn [obind].
  destruct (get_u16_holds _ _ eob _ _ H2 ltac:(lia)) as [-> H3]; [unfold is_u16, msg_size; lia|]. cbn [obind].
  rewrite F1, F2, F3, F4, F5, F6. clear H H1 H2. replace (start + 1 + 1 + 2) with (start + 4) in * by lia.
  unfold enc_msg_rest in H3. fold body in H3. apply holds_app in H3 as [H3 H4].
  assert (match wm_orig M with Some _ => true | None => false end && (start + 4 + wm_addrlen M >? eob) = false) as ->.
  { destruct (wm_orig M) as [a|]; auto. cbn [andb]. destruct (W3 a eq_refl) as [_ E].
    pose proof (zlen_nonneg (opt1 (wm_hoplimit M))). pose proof (zlen_nonneg (opt1 (wm_hopcount M))).
    pose proof (zlen_nonneg (match wm_seqno M with Some s => be16 s | None => [] end)).
    destruct (Z.gtb_spec (start + 4 + wm_addrlen M) eob); auto. lia. }
  match goal with |- context [obind ?X _] =>
    assert (exists o, X = Ok (o, start + 4 + zlen (match wm_orig M with Some a => a | None => [] end)) /\
      match wm_orig M, o with
      | Some a, Some na => exists r, from_binary_prefix a 0 255 = Some (r, na)
      | None, None => True
      | _, _ => False
      end) as (o & -> & HO) end.
  { destruct (wm_orig M) as [a|].
    - destruct (W3 a eq_refl) as [_ E]. rewrite <- E. replace (Z.to_nat (zlen a)) with (length a) by (unfold zlen; lia).
      rewrite (holds_copy _ _ _ H3). destruct (from_binary_prefix_ok a 0 255 ltac:(lia)) as (r & na & EB). rewrite EB.
      eexists. split; [reflexivity|]. exists r. reflexivity.
    - change (zlen (@nil Z)) with 0. rewrite Z.add_0_r. eexists. split; [reflexivity|exact I]. }
  cbn [obind]. set (p1 := start + 4 + zlen _) in *. clear H3.
  apply holds_app in H4 as [H4 H5].
  match goal with |- context [obind ?X _] =>
    assert (X = Ok (wm_hoplimit M, p1 + zlen (opt1 (wm_hoplimit M)), OKAY)) as -> end.
  { destruct (wm_hoplimit M) as [x|]; cbn [opt1] in *.
    - change (zlen [x]) with 1 in *. pose proof (zlen_nonneg (opt1 (wm_hopcount M))).
      pose proof (zlen_nonneg (match wm_seqno M with Some s => be16 s | None => [] end)).
      destruct (get_u8_holds _ _ eob _ _ H4 ltac:(lia)) as [-> _]. reflexivity.
    - change (zlen (@nil Z)) with 0. now rewrite Z.add_0_r. }
  cbn [obind]. set (p2 := p1 + zlen _) in *. clear H4.
  apply holds_app in H5 as [H5 H6].
  match goal with |- context [obind ?X _] =>
    assert (X = Ok (wm_hopcount M, p2 + zlen (opt1 (wm_hopcount M)), OKAY)) as -> end.
  { destruct (wm_hopcount M) as [x|]; cbn [opt1] in *.
    - change (zlen [x]) with 1 in *.
      pose proof (zlen_nonneg (match wm_seqno M with Some s => be16 s | None => [] end)).
      destruct (get_u8_holds _ _ eob _ _ H5 ltac:(lia)) as [-> _]. reflexivity.
    - change (zlen (@nil Z)) with 0. now rewrite Z.add_0_r. }
  cbn [obind]. set (p3 := p2 + zlen _) in *. clear H5.
  match goal with |- context [obind ?X _] =>
    assert (X = Ok (wm_seqno M, p3 + zlen (match wm_seqno M with Some s => be16 s | None => [] end), OKAY)) as -> end.
  { destruct (wm_seqno M) as [x|].
    - rewrite be16_len in *. destruct (get_u16_holds _ _ eob _ _ H6 ltac:(lia) (W6 x eq_refl)) as [-> _]. reflexivity.
    - change (zlen (@nil Z)) with 0. now rewrite Z.add_0_r. }
  cbn [obind]. apply holds_app in H6 as [_ H6].
  destruct (Z.gtb_spec (start + msg_size M) eob); [unfold msg_size in *; lia|].
  eexists. eexists. split; [reflexivity|]. split; [|split; [|split; [exact H6|unfold msg_size; lia]]].
  2:{ unfold p3, p2, p1. repeat match goal with |- context [zlen ?l] => pose proof (zlen_nonneg l); set (zlen l) in * end. lia. }
  unfold header_of. cbn. auto 12.
Qed.

Lemma zlen_enc_msg M : zlen (enc_msg M) = msg_size M.
Proof. unfold enc_msg. rewrite !zlen_app, be16_len. unfold msg_size. change (zlen [wm_type M; msg_flags M + (wm_addrlen M - 1)]) with 2. lia. Qed.

Lemma parse_message_decodes M start eob m : wf_msg M -> holds pkt start (enc_msg M) -> start + msg_size M <= eob ->
  exists msg m', parse_message alloc pkt start eob m = Ok (OKAY, msg, m') /\ header_of M (ms_hdr msg) /\ ms_start msg = start /\
    (exists ts, Forall2 (decodes pkt 0) (wm_tlvs M) ts /\ ms_tlvs msg = insert_all ts []) /\
    decodes_blocks pkt (wm_addrlen M) (start + msg_size M - zlen (flat_map enc_block (wm_blocks M))) (wm_blocks M) (ms_addrs msg).
Proof.
  intros W H L. destruct (parse_msgheader_decodes M start eob W H L) as (p & h & EH & HH & P1 & H1 & E1).
  unfold parse_message. rewrite EH. cbn [obind]. change (negb (OKAY =? OKAY)) with false. cbn iota.
  destruct W as (_ & W2 & _ & _ & _ & _ & W7 & W8 & W9).
  pose proof HH as (_ & _ & EA & ES & _). rewrite ES, EA.
  apply holds_app in H1 as [H1 H2]. rewrite zlen_app in E1.
  pose proof (zlen_nonneg (flat_map enc_block (wm_blocks M))) as X1.
  destruct (holds_bound _ _ _ H) as [B1 B2]. rewrite zlen_enc_msg in B2.
  destruct (holds_bound _ _ _ H1) as [B3 _].
  destruct (parse_tlvblock_decodes alloc pkt A 0 (start + msg_size M) (wm_tlvs M) p m ltac:(lia) W7) as (ts & m1 & -> & D & _); auto.
  { unfold enc_tlvs in E1. rewrite zlen_app, be16_len in E1. lia. }
  { lia. }
  cbn [obind]. change (negb (OKAY =? OKAY)) with false. cbn iota.
  destruct (addrblocks_loop_decodes (wm_addrlen M) (start + msg_size M) (wm_blocks M) W2 W8 (S (length pkt)) _ [] m1 H2 ltac:(lia))
    as (abs & m2 & -> & DB).
  { unfold zlen in *. lia. }
  cbn [obind app]. eexists. eexists. split; [reflexivity|]. cbn. split; [exact HH|]. split; auto. split; [eauto|].
  replace (start + msg_size M - zlen (flat_map enc_block (wm_blocks M))) with (p + zlen (enc_tlvs (wm_tlvs M))) by lia. exact DB.
Qed.
End M.
