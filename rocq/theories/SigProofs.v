(** Taking signatures out of well-formed messages and packets. *)
From Verif Require Import Base BitsModel BufLemmas SplitLemmas NetaddrModel ReaderModel ReadDispModel WireSpec WireParse SigModel SigSpec.
From Coq Require Import Permutation.

Lemma sget_holds pkt off x l : holds pkt off (x :: l) -> sget pkt off = SOk x.
Proof. intros H. apply holds_cons in H as [H _]. unfold sget. now rewrite H. Qed.
Lemma scopy_holds pkt off l n : holds pkt off l -> n = zlen l -> scopy pkt off n = SOk l.
Proof.
  intros H ->. unfold scopy. replace (Z.to_nat (zlen l)) with (length l) by (unfold zlen; lia). now rewrite (holds_copy _ _ _ H).
Qed.
Lemma holds_at pkt off off' l : holds pkt off l -> off = off' -> holds pkt off' l.
Proof. now intros ? <-. Qed.
Lemma bit_flag x m : bit x m = flag x m. Proof. reflexivity. Qed.

Lemma value_flags w : bit (tlv_flags w) 0x10 = isS (w_value w) /\ (isS (w_value w) = true -> bit (tlv_flags w) 0x08 = w_long w).
Proof.
  unfold tlv_flags, bit. destruct (w_ext w), (w_index w), (w_value w), (w_long w), (w_multi w); cbn; split; auto; discriminate.
Qed.

Lemma rm_tlvlen_enc pkt w src : wf_tlv 0 w -> zlen (enc_tlv w) < 65536 -> holds pkt src (enc_tlv w) ->
  rm_tlvlen pkt src = SOk (zlen (enc_tlv w)).
Proof.
  intros (W1 & W2 & W3 & W4 & W5) L H. cbn in W5. destruct W5 as [W5 W6].
  unfold rm_tlvlen. unfold enc_tlv in *. rewrite W5 in *. cbn [app] in *.
  apply holds_cons in H as [_ H]. pose proof (sget_holds _ _ _ _ H) as ->. cbn [sbind].
  apply holds_cons in H as [_ H].
  destruct (value_flags w) as [V1 V2]. destruct (tlv_flags_tests w) as (F1 & _). rewrite V1. change (bit (tlv_flags w) 128) with (flag (tlv_flags w) 128). rewrite F1.
  set (tl := if match w_ext w with Some _ => true | None => false end then 3 else 2).
  assert (tl = 2 + zlen (opt1 (w_ext w))) as TL.
  { unfold tl. destruct (w_ext w); cbn [opt1]; rewrite ?zlen_cons, ?zlen_nil; lia. }
  apply holds_app in H as [_ H].
  assert (0 <= zlen (opt1 (w_ext w))) by apply zlen_nonneg.
  destruct (w_value w) as [v|] eqn:EV; cbn [isS] in *.
  - rewrite (V2 eq_refl). unfold value_bytes in W4. rewrite EV in W4. pose proof (zlen_nonneg v).
    destruct (w_long w) eqn:EL.
    + cbn [be16 app] in *. pose proof (holds_at _ _ (src + tl) _ H ltac:(lia)) as HA. rewrite (sget_holds _ _ _ _ HA). cbn [sbind].
      apply holds_cons in HA as [_ HA]. pose proof (sget_holds _ _ _ _ HA) as ->. cbn [sbind]. f_equal.
      rewrite !zlen_cons, !zlen_app, !zlen_cons in *. rewrite u16_id; unfold is_u16; [|zdm; lia]. zdm; lia.
    + cbn [app] in *. pose proof (holds_at _ _ (src + tl) _ H ltac:(lia)) as HA. rewrite (sget_holds _ _ _ _ HA). cbn [sbind]. f_equal.
      rewrite !zlen_cons, !zlen_app, !zlen_cons in *. rewrite u16_id; unfold is_u16; lia.
  - f_equal. rewrite !zlen_cons, !zlen_app, zlen_nil in *. lia.
Qed.

Lemma sput_cases used l : sput used l = SOk l \/ (sput used l = SBad (S_static (used + zlen l)) /\ STATIC_SIZE < used + zlen l).
Proof. unfold sput. destruct (Z.leb_spec (used + zlen l) STATIC_SIZE); auto. Qed.
Definition too_big (lo hi : Z) {A} (r : sres A) : Prop := exists n, r = SBad (S_static n) /\ STATIC_SIZE < n /\ lo <= n <= hi.

Lemma flat_map_len (ws : list wtlv) : 0 <= zlen (flat_map enc_tlv ws). Proof. apply zlen_nonneg. Qed.

Ltac triple := match goal with |- SOk (?a, ?b, ?c) = SOk (?a', ?b', ?c) => apply (f_equal2 (fun p q => SOk (p, q, c))); lia end.
Lemma plain_shorter ws : zlen (flat_map enc_tlv (plain ws)) <= zlen (flat_map enc_tlv ws).
Proof.
  induction ws as [|w ws IH]; [cbn; lia|]. cbn [plain filter]. destruct (negb (is_icv w)); cbn [flat_map]; rewrite !zlen_app.
  - unfold plain in IH. lia.
  - pose proof (enc_tlv_len w). unfold plain in IH. lia.
Qed.

Lemma rm_loop_enc pkt used ws : Forall (wf_tlv 0) ws -> forall fuel src out b,
  holds pkt src (flat_map enc_tlv ws) -> zlen (flat_map enc_tlv ws) < 65536 ->
  zlen (flat_map enc_tlv ws) - zlen (flat_map enc_tlv (plain ws)) <= b < 65536 ->
  (length (flat_map enc_tlv ws) <= fuel)%nat ->
  rm_loop pkt fuel used src (zlen (flat_map enc_tlv ws)) b out =
    SOk (src + zlen (flat_map enc_tlv ws), b - (zlen (flat_map enc_tlv ws) - zlen (flat_map enc_tlv (plain ws))),
         out ++ flat_map enc_tlv (plain ws)) \/
  too_big 0 (used + zlen out + zlen (flat_map enc_tlv (plain ws)))
    (rm_loop pkt fuel used src (zlen (flat_map enc_tlv ws)) b out).
Proof.
  induction ws as [|w ws IH]; intros WF fuel src out b H L B F.
  - left. cbn [plain filter flat_map]. rewrite app_nil_r, !zlen_nil. rewrite Z.add_0_r. replace (b - (0 - 0)) with b by lia. destruct fuel; reflexivity.
  - inversion WF as [|? ? W1 W2]; subst. cbn [flat_map] in *.
    pose proof (enc_tlv_len w) as L2. pose proof (flat_map_len ws) as L3. pose proof (flat_map_len (plain ws)) as L4. pose proof (plain_shorter ws) as L5. rewrite zlen_app in *.
    destruct fuel as [|fuel]. { exfalso. rewrite app_length in F. unfold zlen in L2. lia. }
    apply holds_app in H as [H1 H2]. cbn [rm_loop].
    destruct (Z.eqb_spec (zlen (enc_tlv w) + zlen (flat_map enc_tlv ws)) 0); [lia|].
    rewrite (rm_tlvlen_enc _ _ _ W1 ltac:(lia) H1). cbn [sbind].
    assert (exists l, enc_tlv w = w_type w :: l) as [l EL] by (unfold enc_tlv; cbn [app]; eauto).
    assert (sget pkt src = SOk (w_type w)) as -> by (apply (sget_holds _ _ _ l); now rewrite <- EL). cbn [sbind].
    assert (u16 (zlen (enc_tlv w) + zlen (flat_map enc_tlv ws) - zlen (enc_tlv w)) = zlen (flat_map enc_tlv ws)) as EU
      by (rewrite u16_id; unfold is_u16; lia).
    assert (length (flat_map enc_tlv ws) <= fuel)%nat as F'.
    { rewrite app_length in F. unfold zlen in L2. lia. }
    unfold plain, is_icv, ICV in *. cbn [filter] in *. destruct (Z.eqb_spec (w_type w) 5) as [ET|ET]; cbn [negb] in *.
    + rewrite EU. assert (u16 (b - zlen (enc_tlv w)) = b - zlen (enc_tlv w)) as -> by (rewrite u16_id; unfold is_u16; lia).
      destruct (IH W2 fuel (src + zlen (enc_tlv w)) out (b - zlen (enc_tlv w)) H2 ltac:(lia) ltac:(lia) F') as [E|T].
      * left. rewrite E. triple.
      * right. exact T.
    + cbn [flat_map] in *. rewrite zlen_app in *.
      rewrite (scopy_holds _ _ _ _ H1 eq_refl). cbn [sbind]. unfold sput.
      destruct (Z.leb_spec (used + zlen out + zlen (enc_tlv w)) STATIC_SIZE).
      * cbn [sbind]. rewrite EU.
        destruct (IH W2 fuel (src + zlen (enc_tlv w)) (out ++ enc_tlv w) b H2 ltac:(lia) ltac:(lia) F') as [E|T].
        -- left. rewrite E. rewrite <- app_assoc. triple.
        -- right. rewrite zlen_app in T. destruct T as (k & T1 & T2 & T3). exists k. split; [exact T1|lia].
      * right. cbn [sbind]. exists (used + zlen out + zlen (enc_tlv w)). split; [reflexivity|].
        pose proof (zlen_nonneg out). unfold STATIC_SIZE in *. lia.
Qed.

Lemma plain_nonempty ws : plain ws <> [] -> 2 <= zlen (flat_map enc_tlv (plain ws)).
Proof.
  destruct (plain ws) as [|w l]; [congruence|]. intros _. cbn [flat_map]. rewrite zlen_app.
  pose proof (enc_tlv_len w). pose proof (flat_map_len l). lia.
Qed.

(** a header, a TLV block and a rest *)
Lemma remove_enc pkt fuel base x len hl hc hdr ws rest :
  hdr_of x = (len, hl, hc) -> len = zlen hdr ->
  holds pkt (c_start x) (hdr ++ enc_tlvs ws ++ rest) ->
  c_size x = zlen (hdr ++ enc_tlvs ws ++ rest) -> c_size x < 65536 ->
  Forall (wf_tlv 0) ws -> (length (flat_map enc_tlv ws) <= fuel)%nat -> 0 <= base ->
  let h := zero_at hc (zero_at hl hdr) in
  let T := if negb (zlen (flat_map enc_tlv (plain ws)) =? 0) || c_msg x
           then let o := h ++ enc_tlvs (plain ws) ++ rest in
                if c_msg x then
                  match zset o 2 (u16 (zlen o) / 256) with
                  | Some o1 => match zset o1 3 (Z.land (u16 (zlen o)) 255) with Some o2 => SOk o2 | None => SBad (S_static 3) end
                  | None => SBad (S_static 2) end
                else SOk o
           else match h with b0 :: h' => SOk (Z.land b0 (255 - 0x04) :: h' ++ rest) | [] => SOk rest end in
  remove_signature_data pkt fuel base x = T \/
  too_big 0 (base + zlen hdr + (if negb (zlen (flat_map enc_tlv (plain ws)) =? 0) || c_msg x then 2 else 0) +
             zlen (flat_map enc_tlv (plain ws)) + zlen rest)
    (remove_signature_data pkt fuel base x).
Proof.
  intros HX -> H SZ LT WF F B h T. unfold remove_signature_data. rewrite HX.
  apply holds_app in H as [H1 H2]. unfold enc_tlvs in H2. rewrite <- app_assoc in H2. apply holds_app in H2 as [H2 H3].
  rewrite be16_len in H3. apply holds_app in H3 as [H3 H4].
  rewrite !zlen_app in SZ. unfold enc_tlvs in SZ. rewrite zlen_app, be16_len in SZ.
  pose proof (zlen_nonneg hdr) as N1. pose proof (zlen_nonneg rest) as N2. pose proof (flat_map_len ws) as N3.
  pose proof (plain_shorter ws) as N4. pose proof (flat_map_len (plain ws)) as N5.
  rewrite (scopy_holds _ _ _ _ H1 eq_refl). cbn [sbind].
  destruct (sput_cases base hdr) as [ES|[ES BIG]]; rewrite !ES.
  2: { right. exists (base + zlen hdr). cbn [sbind]. split; [reflexivity|]. destruct (_ || _); lia. }
  cbn [sbind]. fold h.
  unfold be16 in H2. rewrite (sget_holds _ _ _ _ H2). cbn [sbind]. apply holds_cons in H2 as [_ H2].
  rewrite (sget_holds _ _ _ _ H2). cbn [sbind].
  assert (u16 (256 * (zlen (flat_map enc_tlv ws) / 256) + zlen (flat_map enc_tlv ws) mod 256) = zlen (flat_map enc_tlv ws)) as ->.
  { rewrite u16_id; unfold is_u16; zdm; lia. }
  destruct (rm_loop_enc pkt (base + zlen hdr + 2) ws WF fuel (c_start x + zlen hdr + 2) [] (zlen (flat_map enc_tlv ws)) H3
    ltac:(lia) ltac:(lia) F) as [E|TB].
  - rewrite E. cbn [sbind app].
    replace (zlen (flat_map enc_tlv ws) - (zlen (flat_map enc_tlv ws) - zlen (flat_map enc_tlv (plain ws))))
      with (zlen (flat_map enc_tlv (plain ws))) by lia.
    set (P := flat_map enc_tlv (plain ws)) in *. 
    assert (u16 (c_start x + c_size x - (c_start x + zlen hdr + 2 + zlen (flat_map enc_tlv ws))) = zlen rest) as ->.
    { rewrite SZ. rewrite u16_id; unfold is_u16; lia. }
    rewrite (scopy_holds _ _ _ _ H4 eq_refl). cbn [sbind].
    replace (zlen P >? 0) with (negb (zlen P =? 0)) by (destruct (Z.eqb_spec (zlen P) 0), (Z.gtb_spec (zlen P) 0); try reflexivity; lia).
    unfold T. fold P.
    destruct (negb (zlen P =? 0) || c_msg x) eqn:K.
    + unfold sput. destruct (Z.leb_spec (base + zlen hdr + 2 + zlen P + zlen rest) STATIC_SIZE).
      * left. cbn [sbind]. unfold enc_tlvs, be16. fold P.
        replace (Z.land (zlen P) 255) with (zlen P mod 256) by (change 255 with (Z.ones 8); rewrite Z.land_ones by lia; reflexivity).
        cbv zeta. replace (([zlen P / 256; zlen P mod 256] ++ P) ++ rest) with ([zlen P / 256; zlen P mod 256] ++ P ++ rest)
          by now rewrite <- app_assoc.
        destruct (c_msg x); reflexivity.
      * right. cbn [sbind]. eexists; split; [reflexivity|]. lia.
    + apply orb_false_iff in K as [K1 K2]. apply negb_false_iff, Z.eqb_eq in K1. pose proof (zlen_zero _ K1) as KP.
      unfold sput. rewrite K1, KP. cbn [app]. destruct (Z.leb_spec (base + zlen hdr + 0 + 0 + zlen rest) STATIC_SIZE).
      * left. cbn [sbind]. destruct h; reflexivity.
      * right. cbn [sbind]. eexists; split; [reflexivity|]. lia.
  - right. destruct TB as (n & E & T1 & T2). rewrite E. cbn [sbind]. exists n. split; [reflexivity|]. split; [lia|].
    change (zlen (@nil Z)) with 0 in T2.
    destruct (Z.eqb_spec (zlen (flat_map enc_tlv (plain ws))) 0) as [Z0|Z0]; cbn [negb orb]; [|lia].
    destruct (c_msg x); [lia|].
    (* no plain TLV: the loop writes nothing *)
    exfalso. clear - E WF Z0 N3 H3 LT SZ N1 N2 F.
    assert (forall k src b, (length (flat_map enc_tlv ws) <= k)%nat -> holds pkt src (flat_map enc_tlv ws) ->
       rm_loop pkt k (base + zlen hdr + 2) src (zlen (flat_map enc_tlv ws)) b [] <> SBad (S_static n)) as G.
    { assert (zlen (flat_map enc_tlv ws) < 65536) as LL by lia. clear - WF Z0 LL.
      induction ws as [|w ws IH]; intros k src b F H.
      - cbn [flat_map]. rewrite zlen_nil. destruct k; discriminate.
      - inversion WF as [|? ? W1 W2]; subst. cbn [flat_map] in *. pose proof (enc_tlv_len w) as L2. pose proof (flat_map_len ws) as L3.
        rewrite zlen_app in *. destruct k as [|k]; [cbn; destruct (_ =? _); discriminate|]. cbn [rm_loop].
        destruct (Z.eqb_spec (zlen (enc_tlv w) + zlen (flat_map enc_tlv ws)) 0); [lia|].
        apply holds_app in H as [H1 H2]. rewrite (rm_tlvlen_enc _ _ _ W1 ltac:(lia) H1). cbn [sbind].
        assert (exists l, enc_tlv w = w_type w :: l) as [l EL] by (unfold enc_tlv; cbn [app]; eauto).
        assert (sget pkt src = SOk (w_type w)) as -> by (apply (sget_holds _ _ _ l); now rewrite <- EL). cbn [sbind].
        unfold plain, is_icv, ICV in *. cbn [filter] in Z0. destruct (Z.eqb_spec (w_type w) 5) as [ET|ET]; cbn [negb] in *.
        + replace (u16 (zlen (enc_tlv w) + zlen (flat_map enc_tlv ws) - zlen (enc_tlv w))) with (zlen (flat_map enc_tlv ws))
            by (rewrite u16_id; unfold is_u16; lia).
          apply IH; auto; try lia. rewrite app_length in F. unfold zlen in L2. lia.
        + cbn [flat_map] in Z0. rewrite zlen_app in Z0. pose proof (flat_map_len (filter (fun w0 : wtlv => negb (w_type w0 =? 5)) ws)). lia. }
    exact (G _ _ _ F H3 E).
Qed.
