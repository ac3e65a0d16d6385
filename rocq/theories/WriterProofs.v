(** Proofs about the TLV writer and the packet generator. *)
From Verif Require Import Base BitsModel BufLemmas SplitLemmas WriterModel ReaderModel ReadDispModel WireSpec WriterSpec.

Lemma u64_small z : 0 <= z < 18446744073709551616 -> u64 z = z.
Proof. intros H. now apply u64_id. Qed.

Lemma some_inj {A} (x y : A) : Some x = Some y -> x = y.
Proof. congruence. Qed.
Lemma land255 x : Z.land x 255 = x mod 256.
Proof. change 255 with (Z.ones 8). rewrite Z.land_ones by lia. reflexivity. Qed.

(** ** One TLV *)
Lemma tlv_bytes_enc t x v : is_u8 x -> zlen v < 65536 -> tlv_bytes t x 0 255 v = enc_tlv (tlv_of t x v).
Proof.
  intros X L. unfold tlv_bytes, enc_tlv, tlv_of, tlv_flags, tlv_flag_byte, be16. cbn [w_type w_ext w_index w_long w_value w_multi].
  unfold is_u8 in X. pose proof (zlen_nonneg v). rewrite land255.
  change (0 =? 255) with false. change ((0 >? 0) || (255 <? 255)) with false. cbn iota.
  assert ((x >? 0) = negb (x =? 0)) as -> by (destruct (Z.gtb_spec x 0), (Z.eqb_spec x 0); cbn; lia).
  destruct v as [|y v].
  - change (zlen (@nil Z)) with 0. cbn. destruct (x =? 0); reflexivity.
  - set (w := y :: v) in *. assert (0 < zlen w) by (unfold w; rewrite zlen_cons; pose proof (zlen_nonneg v); lia).
    destruct (Z.gtb_spec (zlen w) 0); [|lia]. rewrite Z.gtb_ltb.
    destruct (Z.ltb_spec 255 (zlen w)).
    + rewrite (u8_id (zlen w / 256)) by (unfold is_u8; split; [apply Z.div_pos; lia|apply Z.div_lt_upper_bound; lia]).
      destruct (x =? 0); cbn [negb has opt1 app]; unfold w; reflexivity.
    + rewrite Z.mod_small by lia. destruct (x =? 0); cbn [negb has opt1 app]; unfold w; reflexivity.
Qed.
Lemma tlv_bytes_len t x v : zlen (tlv_bytes t x 0 255 v) = op_size (TAdd t x v).
Proof.
  unfold tlv_bytes, op_size, enc_tlv, tlv_of, be16. cbn [w_type w_ext w_index w_long w_value w_multi].
  change ((0 >? 0) || (255 <? 255)) with false. cbn iota. rewrite !Z.gtb_ltb.
  rewrite !zlen_app. destruct (x =? 0); cbn [negb opt1];
  (destruct v as [|y v]; [reflexivity|]);
  set (w := y :: v) in *; (assert (0 < zlen w) by (unfold w; rewrite zlen_cons; pose proof (zlen_nonneg v); lia));
  (destruct (Z.ltb_spec 0 (zlen w)); [|lia]); rewrite !zlen_cons, !zlen_app; change (zlen (@nil Z)) with 0;
  (destruct (Z.ltb_spec 255 (zlen w))); change (zlen [_; _]) with 2; change (zlen [_]) with 1; change (zlen (@nil Z)) with 0; lia.
Qed.
Lemma enc_size t x v : zlen (enc_tlv (tlv_of t x v)) =
  2 + (if x =? 0 then 0 else 1) + zlen v + (if zlen v =? 0 then 0 else if zlen v <=? 255 then 1 else 2).
Proof.
  change (zlen (enc_tlv (tlv_of t x v))) with (op_size (TAdd t x v)). rewrite <- tlv_bytes_len.
  unfold tlv_bytes. change ((0 >? 0) || (255 <? 255)) with false. cbn iota. rewrite !Z.gtb_ltb. pose proof (zlen_nonneg v).
  rewrite !zlen_app.
  destruct (x =? 0), (Z.eqb_spec (zlen v) 0), (Z.leb_spec (zlen v) 255), (Z.ltb_spec 0 (zlen v)), (Z.ltb_spec 255 (zlen v));
    try lia; cbn [negb]; rewrite ?zlen_cons; change (zlen (@nil Z)) with 0; lia.
Qed.
Lemma calc_size h l : 0 <= l < 9223372036854775808 -> calc_tlv_size h l = op_size (TAllocate h l).
Proof.
  intros L. unfold calc_tlv_size, op_size. rewrite !Z.gtb_ltb.
  destruct h; rewrite (u64_small (_ + l)) by lia;
  destruct (Z.ltb_spec 255 l), (Z.ltb_spec 0 l), (Z.eqb_spec l 0), (Z.leb_spec l 255); try lia; rewrite ?u64_small by lia; lia.
Qed.
Lemma calc_enc t x v : zlen v < 9223372036854775808 -> calc_tlv_size (negb (x =? 0)) (zlen v) = zlen (enc_tlv (tlv_of t x v)).
Proof.
  intros L. pose proof (zlen_nonneg v). rewrite calc_size, enc_size by lia. cbn [op_size]. destruct (x =? 0); cbn [negb]; lia.
Qed.
Lemma op_size_pos o : op_ok o -> 2 <= op_size o < 9223372036854775816.
Proof.
  destruct o as [t x v|h l|t x v]; cbn [op_ok op_size]; intros H; rewrite ?enc_size;
    try pose proof (zlen_nonneg v); destruct H; repeat match goal with H : _ /\ _ |- _ => destruct H end;
    repeat match goal with |- context [if ?b then _ else _] => destruct b end; lia.
Qed.

(** ** One call *)
Definition unchanged (d d' : twd) : Prop :=
  zlen (tw_buf d') = zlen (tw_buf d) /\ tw_header d' = tw_header d /\ tw_max d' = tw_max d.

Lemma tw_step_ok d o : tw_ok d -> op_ok o ->
  exists r d', tw_step d o = Some (r, d') /\ tw_ok d' /\ unchanged d d' /\
    ((op_fits d o /\ r = W_OKAY /\
      tw_added d' = tw_added d + (match o with TAdd _ _ _ => op_size o | _ => 0 end) /\
      tw_allocated d' = tw_allocated d + (match o with TAllocate _ _ => op_size o | _ => 0 end) /\
      tw_set d' = tw_set d + (match o with TSet _ _ _ => op_size o | _ => 0 end) /\
      (forall i, match o with
                 | TAdd _ _ _ => i < tw_header d + tw_added d \/ tw_header d' + tw_added d' <= i
                 | TAllocate _ _ => True
                 | TSet _ _ _ => i < tw_header d + tw_added d + tw_set d \/ tw_header d + tw_added d' + tw_set d' <= i
                 end -> zget (tw_buf d') i = zget (tw_buf d) i) /\
      match o with
      | TAdd t x v => copy_in (tw_buf d) (tw_header d + tw_added d) (tlv_bytes t x 0 255 v) = Some (tw_buf d')
      | TAllocate _ _ => tw_buf d' = tw_buf d
      | TSet t x v => copy_in (tw_buf d) (tw_header d + tw_added d + tw_set d) (tlv_bytes t x 0 255 v) = Some (tw_buf d')
      end) \/
     (~ op_fits d o /\ r = W_MTU_TOO_SMALL /\ d' = d)).
Proof.
  intros (H0 & H1 & H2 & H3 & H4) O. pose proof (op_size_pos o O) as P.
  destruct o as [t x v|h l|t x v]; cbn [tw_step op_fits].
  - destruct O as (Ht & Hx & Hv & Hl). unfold tlv_add. rewrite (calc_enc t) by lia. cbn [op_size] in *.
    rewrite u64_small by lia. rewrite Z.gtb_ltb. destruct (Z.ltb_spec (tw_max d) (tw_header d + tw_added d + tw_allocated d + zlen (enc_tlv (tlv_of t x v)))) as [G|G].
    + exists W_MTU_TOO_SMALL, d. split; [reflexivity|]. split; [unfold tw_ok; auto|]. split; [unfold unchanged; auto|].
      right. split; [lia|]. auto.
    + destruct (copy_in_Some (tlv_bytes t x 0 255 v) (tw_buf d) (tw_header d + tw_added d)) as (b & Eb & Lb & Gb);
        [lia|rewrite tlv_bytes_len; cbn [op_size]; lia|]. rewrite Eb. rewrite tlv_bytes_len in Gb. cbn [op_size] in Gb.
      eexists _, _. split; [reflexivity|]. unfold tw_ok, unchanged. cbn [tw_buf tw_header tw_added tw_allocated tw_set tw_max].
      rewrite u64_small by lia. rewrite Lb.
      split; [repeat (split; [lia|]); lia|]. split; [auto|]. left. repeat (split; [try reflexivity; lia|]).
      split; [|reflexivity]. intros i Hi. rewrite Gb. destruct (Z.leb_spec (tw_header d + tw_added d) i), (Z.ltb_spec i (tw_header d + tw_added d + zlen (enc_tlv (tlv_of t x v)))); cbn [andb]; auto; lia.
  - cbn [op_ok] in O. unfold tlv_allocate. rewrite calc_size by lia. rewrite u64_small by lia. rewrite Z.gtb_ltb.
    destruct (Z.ltb_spec (tw_max d) (tw_header d + tw_added d + tw_allocated d + op_size (TAllocate h l))) as [G|G].
    + exists W_MTU_TOO_SMALL, d. split; [reflexivity|]. split; [unfold tw_ok; auto|]. split; [unfold unchanged; auto|].
      right. split; [lia|]. auto.
    + eexists _, _. split; [reflexivity|]. unfold tw_ok, unchanged. cbn [tw_buf tw_header tw_added tw_allocated tw_set tw_max].
      rewrite u64_small by lia.
      split; [repeat (split; [lia|]); lia|]. split; [auto|]. left. repeat (split; [try reflexivity; lia|]). auto.
  - destruct O as (Ht & Hx & Hv & Hl). unfold tlv_set. rewrite (calc_enc t) by lia. cbn [op_size] in *.
    rewrite u64_small by lia. destruct (Z.ltb_spec (tw_allocated d - tw_set d) (zlen (enc_tlv (tlv_of t x v)))) as [G|G].
    + exists W_MTU_TOO_SMALL, d. split; [reflexivity|]. split; [unfold tw_ok; auto|]. split; [unfold unchanged; auto|].
      right. split; [lia|]. auto.
    + destruct (copy_in_Some (tlv_bytes t x 0 255 v) (tw_buf d) (tw_header d + tw_added d + tw_set d)) as (b & Eb & Lb & Gb);
        [lia|rewrite tlv_bytes_len; cbn [op_size]; lia|]. rewrite Eb. rewrite tlv_bytes_len in Gb. cbn [op_size] in Gb.
      eexists _, _. split; [reflexivity|]. unfold tw_ok, unchanged. cbn [tw_buf tw_header tw_added tw_allocated tw_set tw_max].
      rewrite u64_small by lia. rewrite Lb.
      split; [repeat (split; [lia|]); lia|]. split; [auto|]. left. repeat (split; [try reflexivity; lia|]).
      split; [|reflexivity]. intros i Hi. rewrite Gb. destruct (Z.leb_spec (tw_header d + tw_added d + tw_set d) i), (Z.ltb_spec i (tw_header d + tw_added d + tw_set d + zlen (enc_tlv (tlv_of t x v)))); cbn [andb]; auto; lia.
Qed.

Lemma tw_run_ok ops : forall d, tw_ok d -> Forall op_ok ops ->
  exists rs d', tw_run d ops = Some (rs, d') /\ tw_ok d' /\ unchanged d d' /\ length rs = length ops /\
    tw_added d <= tw_added d' /\ tw_allocated d <= tw_allocated d' /\ tw_set d <= tw_set d' /\
    (forall i, i < tw_header d + tw_added d \/ tw_header d' + tw_added d' + tw_allocated d' <= i ->
               zget (tw_buf d') i = zget (tw_buf d) i).
Proof.
  induction ops as [|o ops IH]; intros d I F; cbn [tw_run].
  - exists [], d. split; [reflexivity|]. split; auto. split; [unfold unchanged; auto|]. split; [reflexivity|]. split; [lia|]. split; [lia|]. split; [lia|]. auto.
  - inversion F as [|? ? Fo F']; subst. destruct (tw_step_ok d o I Fo) as (r & d1 & -> & I1 & U1 & C).
    destruct (IH d1 I1 F') as (rs & d2 & -> & I2 & U2 & L & A1 & A2 & A3 & G).
    exists (r :: rs), d2. split; [reflexivity|]. split; auto. pose proof (op_size_pos o Fo).
    destruct U1 as (U1 & U2' & U3), U2 as (V1 & V2 & V3).
    assert (tw_added d <= tw_added d1 /\ tw_allocated d <= tw_allocated d1 /\ tw_set d <= tw_set d1) as (B1 & B2 & B3).
    { destruct C as [(_ & _ & E1 & E2 & E3 & _ & _)|(_ & _ & ->)]; [|lia]. destruct o; lia. }
    split; [unfold unchanged; lia|]. split; [cbn; lia|]. repeat (split; [lia|]).
    intros i Hi. rewrite G by lia. destruct C as [(_ & _ & E1 & E2 & E3 & G1 & _)|(_ & _ & ->)]; auto.
    apply G1. destruct I as (? & ? & ? & ? & ?), I1 as (? & ? & ? & ? & ?), I2 as (? & ? & ? & ? & ?). destruct o; auto; lia.
Qed.

(** ** What is in the buffer *)
Definition enc_all (ws : list wtlv) : bytes := flat_map enc_tlv ws.
Lemma enc_all_app a b : enc_all (a ++ b) = enc_all a ++ enc_all b.
Proof. apply flat_map_app. Qed.
Lemma enc_all_one w : enc_all [w] = enc_tlv w.
Proof. unfold enc_all. cbn [flat_map]. apply app_nil_r. Qed.
Lemma enc_len_value t x v : zlen v <= zlen (enc_tlv (tlv_of t x v)).
Proof. rewrite enc_size. repeat match goal with |- context [if ?b then _ else _] => destruct b end; lia. Qed.

(** first phase: only add and allocate *)
Lemma adds_content ops : forall d ws a g, tw_ok d -> Forall op_ok ops -> Forall (fun o => is_set o = false) ops ->
  tw_max d < 65536 -> tw_set d = 0 -> tw_buf d = a ++ enc_all ws ++ g -> zlen a = tw_header d -> zlen (enc_all ws) = tw_added d ->
  exists rs d' g', tw_run d ops = Some (rs, d') /\ tw_buf d' = a ++ enc_all (ws ++ accepted ops rs) ++ g' /\
    zlen (enc_all (ws ++ accepted ops rs)) = tw_added d' /\ tw_set d' = 0.
Proof.
  induction ops as [|o ops IH]; intros d ws a g I F S M E0 EB LA LE; cbn [tw_run].
  - exists [], d, g. cbn [accepted]. rewrite app_nil_r. auto.
  - inversion F as [|? ? Fo F']; inversion S as [|? ? So S']; subst. pose proof (op_size_pos o Fo) as P.
    destruct (tw_step_ok d o I Fo) as (r & d1 & -> & I1 & (U1 & U2 & U3) & C).
    destruct C as [(Fi & -> & E1 & E2 & E3 & _ & B)|(_ & -> & ->)].
    + destruct o as [t x v|h l|t x v]; [| |discriminate].
      * cbn [op_fits op_size] in *. destruct Fo as (Ht & Hx & Hv & Hl). destruct I as (J0 & J1 & J2 & J3 & J4).
        pose proof (enc_len_value t x v). rewrite tlv_bytes_enc in B by (auto; lia).
        pose proof (f_equal zlen EB) as Q. rewrite !zlen_app in Q.
        destruct (zsplit g (zlen (enc_tlv (tlv_of t x v))) ltac:(lia)) as (g1 & g2 & -> & L1 & L2).
        rewrite EB in B. replace (a ++ enc_all ws ++ g1 ++ g2) with ((a ++ enc_all ws) ++ g1 ++ g2) in B by now rewrite <- !app_assoc.
        rewrite (copy_in_split (enc_tlv (tlv_of t x v)) (a ++ enc_all ws) g1 g2) in B; [|rewrite zlen_app; lia|lia].
        apply some_inj in B.
        assert (a ++ enc_all (ws ++ [tlv_of t x v]) ++ g2 = tw_buf d1) as B'
          by (rewrite <- B, enc_all_app, enc_all_one, <- !app_assoc; reflexivity).
        destruct (IH d1 (ws ++ [tlv_of t x v]) a g2 I1 F' S') as (rs & d2 & g' & -> & B2 & L & S2); auto; try lia.
        { rewrite enc_all_app, zlen_app, enc_all_one. lia. }
        exists (W_OKAY :: rs), d2, g'. split; [reflexivity|]. cbn [accepted]. change (W_OKAY =? 0) with true. cbn iota.
        rewrite (app_assoc ws). auto.
      * rewrite Z.add_0_r in *. destruct (IH d1 ws a g I1 F' S') as (rs & d2 & g' & -> & B2 & L & S2); try lia; [congruence|].
        exists (W_OKAY :: rs), d2, g'. split; [reflexivity|]. cbn [accepted]. change (W_OKAY =? 0) with true. cbn iota.
        rewrite app_nil_l. auto.
    + destruct (IH d ws a g I F' S') as (rs & d2 & g' & -> & B2 & L & S2); auto.
      exists (W_MTU_TOO_SMALL :: rs), d2, g'. split; [reflexivity|]. cbn [accepted]. change (W_MTU_TOO_SMALL =? 0) with false. cbn iota.
      rewrite app_nil_l. auto.
Qed.

(** second phase: only set; [r] is behind the allocated space *)
Lemma sets_content ops r0 : forall d ws a g, tw_ok d -> Forall op_ok ops -> Forall (fun o => is_set o = true) ops ->
  tw_max d < 65536 -> tw_buf d = a ++ enc_all ws ++ g ++ r0 -> zlen a = tw_header d -> zlen (enc_all ws) = tw_added d + tw_set d ->
  zlen g = tw_allocated d - tw_set d ->
  exists rs d' g', tw_run d ops = Some (rs, d') /\ tw_buf d' = a ++ enc_all (ws ++ accepted ops rs) ++ g' ++ r0 /\
    zlen (enc_all (ws ++ accepted ops rs)) = tw_added d' + tw_set d' /\ zlen g' = tw_allocated d' - tw_set d' /\
    tw_added d' = tw_added d /\ tw_allocated d' = tw_allocated d.
Proof.
  induction ops as [|o ops IH]; intros d ws a g I F S M EB LA LE LG; cbn [tw_run].
  - exists [], d, g. cbn [accepted]. rewrite app_nil_r. auto 10.
  - inversion F as [|? ? Fo F']; inversion S as [|? ? So S']; subst. pose proof (op_size_pos o Fo) as P.
    destruct (tw_step_ok d o I Fo) as (r & d1 & -> & I1 & (U1 & U2 & U3) & C).
    destruct C as [(Fi & -> & E1 & E2 & E3 & _ & B)|(_ & -> & ->)].
    + destruct o as [t x v|h l|t x v]; [discriminate|discriminate|].
      cbn [op_fits op_size] in *. destruct Fo as (Ht & Hx & Hv & Hl). destruct I as (J0 & J1 & J2 & J3 & J4).
      pose proof (enc_len_value t x v). rewrite tlv_bytes_enc in B by (auto; lia).
      destruct (zsplit g (zlen (enc_tlv (tlv_of t x v))) ltac:(lia)) as (g1 & g2 & -> & L1 & L2).
      rewrite EB in B. replace (a ++ enc_all ws ++ (g1 ++ g2) ++ r0) with ((a ++ enc_all ws) ++ g1 ++ g2 ++ r0) in B by now rewrite <- !app_assoc.
      rewrite (copy_in_split (enc_tlv (tlv_of t x v)) (a ++ enc_all ws) g1 (g2 ++ r0)) in B; [|rewrite zlen_app; lia|lia].
      apply some_inj in B.
      assert (a ++ enc_all (ws ++ [tlv_of t x v]) ++ g2 ++ r0 = tw_buf d1) as B'
        by (rewrite <- B, enc_all_app, enc_all_one, <- !app_assoc; reflexivity).
      rewrite zlen_app in LG.
      destruct (IH d1 (ws ++ [tlv_of t x v]) a g2 I1 F' S') as (rs & d2 & g' & -> & B2 & L & G2 & S2 & S3); auto; try lia.
      { rewrite enc_all_app, zlen_app, enc_all_one. lia. }
      exists (W_OKAY :: rs), d2, g'. split; [reflexivity|]. cbn [accepted]. change (W_OKAY =? 0) with true. cbn iota.
      rewrite (app_assoc ws). split; auto. split; auto. split; auto. lia.
    + destruct (IH d ws a g I F' S') as (rs & d2 & g' & -> & B2 & L & G2 & S2 & S3); auto.
      exists (W_MTU_TOO_SMALL :: rs), d2, g'. split; [reflexivity|]. cbn [accepted]. change (W_MTU_TOO_SMALL =? 0) with false. cbn iota.
      rewrite app_nil_l. auto 10.
Qed.

(** ** A packet under construction: [ws] the TLVs, [ms] the bytes of the messages *)
Definition hdr_size (q : option Z) : Z := match q with Some _ => 5 | None => 3 end.
Definition layout (t : target) (ws : list wtlv) (ms : bytes) : Prop :=
  exists a g b, tw_buf (tg_pkt t) = a ++ enc_all ws ++ g ++ ms ++ b /\
    tw_ok (tg_pkt t) /\ tw_set (tg_pkt t) = 0 /\ tw_max (tg_pkt t) < 65536 /\
    zlen a = tw_header (tg_pkt t) /\ tw_header (tg_pkt t) = hdr_size (tg_seqno t) /\
    zlen (enc_all ws) = tw_added (tg_pkt t) /\ zlen g = tw_allocated (tg_pkt t) /\ zlen ms = tg_msgs t.

Definition pkt_of (q : option Z) (ws : list wtlv) (ms : list wmsg) : wpkt :=
  {| wp_seqno := q; wp_tlvs := match ws with [] => None | _ => Some ws end; wp_msgs := ms |}.

Lemma begin_layout buf size space q ops : zlen buf >= size -> 0 <= space -> 5 + space <= size < 65536 ->
  Forall op_ok ops -> Forall (fun o => is_set o = false) ops ->
  exists rs t, begin_packet buf size space q ops = Some (rs, t) /\ layout t (accepted ops rs) [] /\
    tg_seqno t = q /\ tw_max (tg_pkt t) = size /\ zlen (tw_buf (tg_pkt t)) = zlen buf /\ length rs = length ops.
Proof.
  intros L S0 S1 F1 F2. unfold begin_packet, tlv_init. cbn [tw_buf].
  set (h := match q with Some _ => 5 | None => 3 end). assert (3 <= h <= 5) as Hh by (unfold h; destruct q; lia).
  set (d := Twd buf h 0 space 0 size).
  assert (tw_ok d) as I by (unfold tw_ok, d; cbn; lia).
  destruct (tw_run_ok ops d I F1) as (rs & d' & E & I' & (U1 & U2 & U3) & LR & A1 & A2 & A3 & _).
  destruct (zsplit buf h ltac:(lia)) as (a & g & EB & La & Lg).
  destruct (adds_content ops d [] a g I F1 F2) as (rs' & d'' & g' & E' & B & LE & S2); auto; try (unfold d; cbn; lia).
  rewrite E in E'. injection E' as <- <-. rewrite E. exists rs, (Target d' q 0). split; [reflexivity|].
  cbn [tg_pkt tg_seqno tg_msgs app] in *. unfold d in U1, U2, U3. cbn [tw_buf tw_header tw_max] in U1, U2, U3.
  split; [|auto]. unfold layout. cbn [tg_pkt tg_seqno tg_msgs].
  pose proof (f_equal zlen B) as Q. rewrite !zlen_app in Q. pose proof I' as (J0 & J1 & J2 & J3 & J4).
  destruct (zsplit g' (tw_allocated d') ltac:(lia)) as (g1 & g2 & -> & L1 & L2).
  exists a, g1, g2. split; [rewrite B; now rewrite app_nil_l|]. split; auto. split; auto. split; [lia|].
  split; [lia|]. split; [exact U2|]. split; [exact LE|]. split; [exact L1|]. reflexivity.
Qed.

Lemma append_layout t ws ms m : layout t ws ms -> tw_header (tg_pkt t) + tw_added (tg_pkt t) + tw_allocated (tg_pkt t) + tg_msgs t + zlen m <= tw_max (tg_pkt t) ->
  exists t', append_message t m = Some t' /\ layout t' ws (ms ++ m) /\ tg_seqno t' = tg_seqno t /\
    tw_max (tg_pkt t') = tw_max (tg_pkt t) /\ zlen (tw_buf (tg_pkt t')) = zlen (tw_buf (tg_pkt t)) /\
    tw_header (tg_pkt t') = tw_header (tg_pkt t) /\ tw_added (tg_pkt t') = tw_added (tg_pkt t) /\ tw_allocated (tg_pkt t') = tw_allocated (tg_pkt t).
Proof.
  intros (a & g & b & EB & I & S0 & M & LA & LH & LE & LG & LM) R. unfold append_message.
  pose proof (f_equal zlen EB) as Q. rewrite !zlen_app in Q. pose proof I as (J0 & J1 & J2 & J3 & J4).
  destruct (zsplit b (zlen m) ltac:(pose proof (zlen_nonneg m); lia)) as (b1 & b2 & -> & L1 & L2).
  rewrite EB. replace (a ++ enc_all ws ++ g ++ ms ++ b1 ++ b2) with ((a ++ enc_all ws ++ g ++ ms) ++ b1 ++ b2) by now rewrite <- !app_assoc.
  rewrite (copy_in_split m (a ++ enc_all ws ++ g ++ ms) b1 b2); [|rewrite !zlen_app; lia|lia].
  eexists. split; [reflexivity|]. unfold layout. cbn [tg_pkt tg_seqno tg_msgs tw_buf tw_header tw_added tw_allocated tw_set tw_max].
  split; [|rewrite !zlen_app; repeat (split; [reflexivity || lia|]); auto; fail]. 
  exists a, g, b2. split; [now rewrite <- !app_assoc|]. unfold tw_ok in *. cbn [tw_buf tw_header tw_added tw_allocated tw_set tw_max].
  rewrite !zlen_app in *. split; [repeat (split; [lia|]); lia|]. repeat (split; [auto|]). lia.
Qed.

Lemma move_down P gap ms b : exists r,
  (if zlen ms =? 0 then Some (P ++ gap ++ ms ++ b) else
   match copy_out (P ++ gap ++ ms ++ b) (zlen P + zlen gap) (Z.to_nat (zlen ms)) with
   | None => None
   | Some x => copy_in (P ++ gap ++ ms ++ b) (zlen P) x
   end) = Some (P ++ ms ++ r).
Proof.
  destruct (Z.eqb_spec (zlen ms) 0) as [E|E].
  - apply zlen_zero in E. subst ms. exists (gap ++ b). reflexivity.
  - replace (Z.to_nat (zlen ms)) with (length ms) by (unfold zlen; lia).
    replace (P ++ gap ++ ms ++ b) with ((P ++ gap) ++ ms ++ b) by now rewrite <- app_assoc.
    rewrite (copy_out_split ms (P ++ gap) b); [|rewrite zlen_app; lia].
    pose proof (zlen_nonneg gap). pose proof (zlen_nonneg b). pose proof (zlen_nonneg ms).
    destruct (zsplit (gap ++ ms ++ b) (zlen ms)) as (x & y & E' & L & _); [rewrite !zlen_app; lia|].
    rewrite <- app_assoc, E'. rewrite (copy_in_split ms P x y); [|reflexivity|lia]. eauto.
Qed.

Lemma be16_u8 n : is_u16 n -> [u8 (n / 256); Z.land n 255] = be16 n.
Proof.
  intros H. unfold be16, is_u16 in *. rewrite land255, u8_id; auto.
  unfold is_u8. split; [apply Z.div_pos; lia|apply Z.div_lt_upper_bound; lia].
Qed.
Lemma be16_zlen n : zlen (be16 n) = 2.
Proof. reflexivity. Qed.
Lemma enc_all_pos ws : ws <> [] -> 0 < zlen (enc_all ws).
Proof.
  destruct ws as [|w ws]; [congruence|]. intros _. unfold enc_all. cbn [flat_map]. unfold enc_tlv. cbn [app]. rewrite !zlen_cons.
  match goal with |- 0 < zlen ?l + 1 + 1 => pose proof (zlen_nonneg l) end. lia.
Qed.

Lemma flush_sends t ws ms sets : layout t ws (flat_map enc_msg ms) -> (forall s, tg_seqno t = Some s -> is_u16 s) ->
  Forall op_ok sets -> Forall (fun o => is_set o = true) sets ->
  exists rs, flush t sets = Some (rs, enc_pkt (pkt_of (tg_seqno t) (ws ++ accepted sets rs) ms)) /\ length rs = length sets /\
    zlen (enc_pkt (pkt_of (tg_seqno t) (ws ++ accepted sets rs) ms)) <=
      tw_header (tg_pkt t) + tw_added (tg_pkt t) + tw_allocated (tg_pkt t) + tg_msgs t.
Proof.
  intros (a & g & b & EB & I & S0 & M & LA & LH & LE & LG & LM) SQ F1 F2. unfold flush.
  destruct (tw_run_ok sets (tg_pkt t) I F1) as (rs & d & E & I' & (U1 & U2 & U3) & LR & _).
  destruct (sets_content sets (flat_map enc_msg ms ++ b) (tg_pkt t) ws a g I F1 F2) as (rs' & d' & g' & E' & B & L1 & L2 & L3 & L4); auto; try lia.
  rewrite E in E'. injection E' as <- <-. rewrite E. cbn [tg_seqno tg_msgs tg_pkt].
  set (wt := ws ++ accepted sets rs) in *. destruct I as (I0 & I1 & I2 & I3 & I4). destruct I' as (J0 & J1 & J2 & J3 & J4).
  (* the header *)
  set (q := tg_seqno t) in *. set (p := pkt_of q wt ms).
  set (h := [has q 8 + has (wp_tlvs p) 4] ++ (match q with Some s => be16 s | None => [] end)
            ++ match wp_tlvs p with Some ws => be16 (zlen (enc_all wt)) | None => [] end).
  assert (pkt_header (Target d q (tg_msgs t)) = h) as ->.
  { unfold pkt_header, h. cbn [tg_pkt tg_seqno tg_msgs]. rewrite <- L1. rewrite Z.gtb_ltb.
    destruct wt as [|w wt'] eqn:Ew.
    - cbn [p pkt_of wp_tlvs]. change (zlen (enc_all [])) with 0. change (0 <? 0) with false. cbn iota.
      destruct q as [s|]; cbn [has app]; [|reflexivity]. rewrite <- (be16_u8 s) by auto. reflexivity.
    - rewrite <- Ew in *. assert (wp_tlvs p = Some wt) as -> by (unfold p; rewrite Ew; reflexivity).
      pose proof (enc_all_pos wt ltac:(congruence)). destruct (Z.ltb_spec 0 (zlen (enc_all wt))); [|lia].
      rewrite be16_u8 by (unfold is_u16; lia).
      destruct q as [s|]; cbn [has app]; [|reflexivity]. rewrite <- (be16_u8 s) by auto. reflexivity. }
  assert ((match q with Some _ => 3 | None => 1 end) + (if tw_added d + tw_set d >? 0 then 2 else 0) = zlen h) as LHd.
  { rewrite <- L1, Z.gtb_ltb. unfold h. rewrite !zlen_app. change (zlen [_]) with 1.
    assert (zlen (match wp_tlvs p with Some _ => be16 (zlen (enc_all wt)) | None => [] end) = if 0 <? zlen (enc_all wt) then 2 else 0) as ->.
    { destruct wt as [|w wt'] eqn:Ew; [reflexivity|]. rewrite <- Ew in *.
      assert (wp_tlvs p = Some wt) as -> by (unfold p; rewrite Ew; reflexivity).
      pose proof (enc_all_pos wt ltac:(congruence)). destruct (Z.ltb_spec 0 (zlen (enc_all wt))); [|lia]. reflexivity. }
    destruct q; rewrite ?be16_zlen; change (zlen (@nil Z)) with 0; lia. }
  assert (tw_added d + tw_set d = 0 -> wt = []) as NoT.
  { intros Z0. destruct wt as [|w wt'] eqn:Ew; auto. rewrite <- Ew in *. pose proof (enc_all_pos wt ltac:(congruence)). lia. }
  assert (zlen h <= zlen a) as Lh.
  { rewrite LA, LH, <- LHd. unfold hdr_size. fold q. destruct q, (tw_added d + tw_set d >? 0); lia. }
  pose proof (zlen_nonneg h).
  destruct (zsplit a (zlen h) ltac:(lia)) as (a1 & a2 & -> & K1 & K2).
  rewrite B. replace ((a1 ++ a2) ++ enc_all wt ++ g' ++ flat_map enc_msg ms ++ b) with
    ([] ++ a1 ++ a2 ++ enc_all wt ++ g' ++ flat_map enc_msg ms ++ b) by now rewrite <- app_assoc.
  rewrite (copy_in_split h [] a1); [|reflexivity|lia]. rewrite app_nil_l.
  (* what is behind the header and the TLVs *)
  assert (exists gap, h ++ a2 ++ enc_all wt ++ g' ++ flat_map enc_msg ms ++ b = (h ++ enc_all wt) ++ gap ++ flat_map enc_msg ms ++ b /\
    tw_header d + tw_added d + tw_allocated d = zlen (h ++ enc_all wt) + zlen gap) as (gap & -> & Lgap).
  { exists (a2 ++ g'). rewrite !zlen_app in *.
    destruct (Z.eq_dec (tw_added d + tw_set d) 0) as [Z0|Z0].
    - rewrite (NoT Z0) in *. change (enc_all []) with (@nil Z) in *. cbn [app]. rewrite app_nil_r. split; [now rewrite <- !app_assoc|].
      change (zlen (@nil Z)) with 0. lia.
    - assert (a2 = []) as ->.
      { apply zlen_zero. rewrite K2, LA, LH, <- LHd. unfold hdr_size. fold q. rewrite Z.gtb_ltb.
        destruct (Z.ltb_spec 0 (tw_added d + tw_set d)); [|lia]. destruct q; lia. }
      cbn [app] in *. split; [now rewrite <- !app_assoc|]. change (zlen (@nil Z)) with 0 in *. lia. }
  rewrite LHd, Lgap. replace (zlen h + tw_added d + tw_set d) with (zlen (h ++ enc_all wt)) by (rewrite zlen_app; lia).
  rewrite <- LM. destruct (move_down (h ++ enc_all wt) gap (flat_map enc_msg ms) b) as (r & ->).
  assert (enc_pkt p = h ++ enc_all wt ++ flat_map enc_msg ms) as EP.
  { unfold enc_pkt, h. unfold p at 1 3 6. cbn [pkt_of wp_seqno wp_msgs]. rewrite <- !app_assoc. f_equal. f_equal.
    destruct wt as [|w wt'] eqn:Ew; [reflexivity|]. rewrite <- Ew in *.
    assert (wp_tlvs p = Some wt) as -> by (unfold p; rewrite Ew; reflexivity). unfold enc_tlvs. now rewrite <- app_assoc. }
  replace (Z.to_nat (zlen (h ++ enc_all wt) + zlen (flat_map enc_msg ms))) with (length ((h ++ enc_all wt) ++ flat_map enc_msg ms))
    by (rewrite app_length; unfold zlen; lia).
  replace ((h ++ enc_all wt) ++ flat_map enc_msg ms ++ r) with ([] ++ ((h ++ enc_all wt) ++ flat_map enc_msg ms) ++ r) by (now rewrite <- !app_assoc).
  rewrite (copy_out_split _ [] r 0 eq_refl).
  exists rs. fold wt. fold p. rewrite EP. rewrite <- app_assoc. split; [reflexivity|]. split; auto.
  rewrite !zlen_app in *. pose proof (zlen_nonneg gap). lia.
Qed.
