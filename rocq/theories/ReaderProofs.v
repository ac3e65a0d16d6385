(** Safety, termination and memory balance of the RFC 5444 parser. *)
From Verif Require Import Base BitsModel BitsProofs BufLemmas NetaddrModel ReaderModel ReadDispModel ReaderSpec.

Lemma wp_bind {A B} P (Q : A -> Prop) (R : B -> Prop) x f :
  wp P Q x -> (forall a, Q a -> wp P R (f a)) -> wp P R (obind x f).
Proof. destruct x; cbn; auto. Qed.
Lemma wp_mono {A} P (Q R : A -> Prop) x : wp P Q x -> (forall a, Q a -> R a) -> wp P R x.
Proof. destruct x; cbn; auto. Qed.
Lemma wp_ok {A} P (Q : A -> Prop) a : Q a -> wp P Q (Ok a).
Proof. auto. Qed.

Lemma u8_val x : is_u8 x -> 0 <= x < 256. Proof. auto. Qed.

Section P.
Context (alloc : nat -> bool) (pkt : bytes).
Hypothesis B : all_bytes pkt.
Notation KF := (known_fault pkt).

Lemma get_u8_wp ptr eob err : 0 <= ptr -> eob <= zlen pkt -> err <= 0 ->
  wp KF (fun '(v, p, e) => is_u8 v /\ e <= 0 /\
      ((e = OKAY /\ err = OKAY /\ p = ptr + 1 /\ p <= eob /\ zget pkt ptr = Some v) \/
       (e <> OKAY /\ p = ptr /\ v = 0 /\ (err = OKAY -> eob <= ptr))))
    (get_u8 pkt ptr eob err).
Proof.
  intros H0 H1 H2. unfold get_u8, OKAY, E_EOB. destruct (Z.eqb_spec err 0); cbn [negb].
  - destruct (Z.leb_spec eob ptr).
    + cbn. unfold is_u8. split; [lia|]. split; [lia|]. right. lia.
    + destruct (zget_Some pkt ptr ltac:(lia)) as [v E]. rewrite E. cbn.
      split; [exact (Forall_zget _ _ _ _ B E)|]. split; [lia|]. left. repeat split; auto; lia.
  - cbn. unfold is_u8. split; [lia|]. split; [lia|]. right. repeat split; auto; lia.
Qed.

Lemma lor_shift8 h l : is_u8 h -> is_u8 l -> Z.lor (u16 (Z.shiftl h 8)) l = 256 * h + l.
Proof.
  intros Hh Hl. unfold is_u8 in *. rewrite Z.shiftl_mul_pow2 by lia. change (2 ^ 8) with 256.
  rewrite u16_id by (unfold is_u16; lia). rewrite Z.mul_comm.
  symmetry. rewrite Z.add_comm, <- Z.lxor_lor, <- Z.add_nocarry_lxor; try lia.
  all: apply Z.bits_inj'; intros n Hn; rewrite Z.land_spec, Z.bits_0;
    replace (256 * h) with (Z.shiftl h 8) by (rewrite Z.shiftl_mul_pow2 by lia; change (2 ^ 8) with 256; lia);
    rewrite Z.shiftl_spec by lia;
    destruct (Z.ltb_spec n 8);
    [rewrite (Z.testbit_neg_r h) by lia; reflexivity|
     rewrite (byte_bits_high l) by (unfold is_u8; lia); apply andb_false_r].
Qed.

Lemma get_u16_wp ptr eob err : 0 <= ptr -> eob <= zlen pkt -> err <= 0 ->
  wp KF (fun '(v, p, e) => 0 <= v < 65536 /\ e <= 0 /\
      ((e = OKAY /\ err = OKAY /\ p = ptr + 2 /\ p <= eob /\
        exists h l, zget pkt ptr = Some h /\ zget pkt (ptr + 1) = Some l /\ v = 256 * h + l) \/
       (e <> OKAY /\ ptr <= p <= ptr + 1 /\ (err = OKAY -> eob < ptr + 2))))
    (get_u16 pkt ptr eob err).
Proof.
  intros H0 H1 H2. unfold get_u16.
  eapply wp_bind; [apply get_u8_wp; auto|]. intros [[h p1] e1] (Uh & E1 & C1).
  eapply wp_bind; [apply get_u8_wp; [lia|auto|auto]|]. intros [[l p2] e2] (Ul & E2 & C2).
  cbn [wp]. rewrite lor_shift8 by auto. unfold is_u8 in *. split; [lia|]. split; [lia|].
  destruct C1 as [(-> & -> & -> & ? & G1)|(? & -> & -> & X1)], C2 as [(-> & X & -> & ? & G2)|(? & -> & -> & X2)].
  - left. repeat split; auto; try lia. exists h, l. auto.
  - right. lia.
  - lia.
  - right. lia.
Qed.

Definition adv (ptr eob err p e : Z) : Prop := e <= 0 /\ ptr <= p <= eob /\ (e = OKAY -> err = OKAY).

Lemma get_u8_adv ptr eob err : 0 <= ptr <= eob -> eob <= zlen pkt -> err <= 0 ->
  wp KF (fun '(v, p, e) => is_u8 v /\ adv ptr eob err p e /\ (e = OKAY -> p = ptr + 1)) (get_u8 pkt ptr eob err).
Proof.
  intros. eapply wp_mono; [apply get_u8_wp; auto; lia|]. intros [[v p] e] (? & ? & C). unfold adv.
  split; [assumption|].
  destruct C as [(-> & -> & -> & ? & ?)|(? & -> & -> & _)]; repeat split; auto; try lia; intros; exfalso; auto.
Qed.
Lemma get_u16_adv ptr eob err : 0 <= ptr <= eob -> eob <= zlen pkt -> err <= 0 ->
  wp KF (fun '(v, p, e) => 0 <= v < 65536 /\ adv ptr eob err p e) (get_u16 pkt ptr eob err).
Proof.
  intros. unfold get_u16.
  eapply wp_bind; [apply get_u8_adv; auto|]. intros [[h p1] e1] (Uh & (A1 & A2 & A3) & _).
  eapply wp_bind; [apply get_u8_adv; [lia|auto|auto]|]. intros [[l p2] e2] (Ul & (D1 & D2 & D3) & _).
  cbn [wp]. rewrite lor_shift8 by auto. unfold is_u8, adv in *. repeat split; try lia; auto.
Qed.

Lemma parse_tlv_wp ptr eob ac prev : 0 <= ptr -> ptr <= eob -> eob <= zlen pkt -> is_u8 ac ->
  wp KF (fun '(res, p, t) => res <= 0 /\
      (res = OKAY -> ptr + 2 <= p <= eob /\ tlv_in ptr eob t /\ t_drop t = [] /\
        (0 < ac -> t_idx1 t < ac /\ t_idx2 t < ac)))
    (parse_tlv pkt ptr eob ac prev).
Proof.
  intros H0 H1 H2 Hac. unfold parse_tlv.
  eapply wp_bind; [apply get_u8_adv; auto; unfold OKAY; lia|].
  intros [[ty p1] e1] (Uty & (A1 & A2 & A3) & A4).
  eapply wp_bind; [apply get_u8_adv; auto; lia|].
  intros [[fl p2] e2] (Ufl & (B1 & B2 & B3) & B4).
  apply (wp_bind _ (fun '(v, p, e) => is_u8 v /\ adv p2 eob e2 p e)).
  { destruct (flag fl 128).
    - eapply wp_mono; [apply get_u8_adv; auto; lia|]. now intros [[? ?] ?] (? & ? & _).
    - cbn. unfold is_u8, adv, OKAY. repeat split; auto; lia. }
  intros [[ext p3] e3] (Uext & C1 & C2 & C3).
  apply (wp_bind _ (fun '(i1, i2, p, e, bad) => is_u8 i1 /\ is_u8 i2 /\ adv p3 eob e3 p e)).
  { destruct (_ =? 0).
    - cbn. unfold adv, OKAY. split; [unfold is_u8; lia|]. split; [apply u8_range|]. repeat split; auto; lia.
    - destruct (_ =? 64).
      + eapply wp_bind; [apply get_u8_adv; auto; lia|]. intros [[? ?] ?] (? & ? & _). cbn. auto.
      + destruct (_ =? 32).
        * eapply wp_bind; [apply get_u8_adv; auto; lia|]. intros [[? ?] ?] (? & (X1 & X2 & X3) & _).
          eapply wp_bind; [apply get_u8_adv; auto; lia|]. intros [[? ?] ?] (? & (Y1 & Y2 & Y3) & _).
          cbn. unfold adv, OKAY in *. repeat split; auto; try lia; try apply H; try apply H3.
        * cbn. unfold is_u8, adv, OKAY. repeat split; auto; lia. }
  intros [[[[i1 i2] p4] e4] bad] (Ui1 & Ui2 & D1 & D2 & D3).
  destruct bad; [cbn; unfold E_IDXFLAGS, OKAY; split; [lia|intros; lia]|].
  destruct ((ac >? 0) && ((ac <=? i1) || (ac <=? i2))) eqn:EI;
    [cbn; unfold E_IDX, OKAY; split; [lia|intros; lia]|].
  apply (wp_bind _ (fun '(len, p, e, bad) => 0 <= len < 65536 /\ adv p4 eob e4 p e)).
  { destruct (_ =? 0).
    - cbn. unfold adv, OKAY. repeat split; auto; lia.
    - destruct (_ =? 16).
      + eapply wp_bind; [apply get_u8_adv; auto; lia|]. intros [[v ?] ?] (? & ? & _). cbn.
        unfold is_u8 in *. split; auto; lia.
      + destruct (_ =? 24).
        * eapply wp_bind; [apply get_u16_adv; auto; lia|]. intros [[? ?] ?] (? & ?). cbn. auto.
        * cbn. unfold adv, OKAY. repeat split; auto; lia. }
  intros [[[len p5] e5] bad] (Ul & F1 & F2 & F3).
  destruct bad; [cbn; unfold E_VALUEFLAGS, OKAY; split; [lia|intros; lia]|].
  destruct (Z.gtb_spec (p5 + len) eob); [cbn; unfold E_EOB, OKAY; split; [lia|intros; lia]|].
  destruct (Z.eqb_spec e5 OKAY) as [Ee5|]; cbn [negb]; [|cbn; split; [lia|intros; lia]].
  assert (ptr + 2 <= p5) as Hadv.
  { specialize (F3 Ee5). specialize (D3 F3). specialize (C3 D3). pose proof (B3 C3). specialize (B4 C3).
    specialize (A4 ltac:(auto)). lia. }
  assert (0 < ac -> i1 < ac /\ i2 < ac) as Hidx.
  { intros. destruct (Z.gtb_spec ac 0), (Z.leb_spec ac i1), (Z.leb_spec ac i2); cbn in EI; try discriminate; lia. }
  destruct (Z.eqb_spec len 0).
  { cbn [wp]. split; [unfold OKAY; lia|]. intros _. split; [lia|]. split; [|split; auto].
    constructor; cbn; auto; try lia. }
  destruct (Z.eqb_spec (u8 (i2 - i1 + 1)) 1) as [E1|E1].
  { cbn [negb wp]. split; [unfold OKAY; lia|]. intros _. split; [lia|]. split; [|split; auto].
    constructor; cbn; auto; try lia. intros _. exists p5. unfold t_count. cbn. repeat split; auto; lia. }
  destruct (flag fl 4) eqn:EF; cbn [negb].
  2:{ cbn [wp]. split; [unfold OKAY; lia|]. intros _. split; [lia|]. split; [|split; auto].
    constructor; cbn; auto; try lia. intros _. exists p5. unfold t_count. cbn. repeat split; auto; lia. }
  destruct (Z.eqb_spec (u8 (i2 - i1 + 1)) 0) as [E0|E0].
  { cbn. repeat split; auto; lia. }
  pose proof (u8_range (i2 - i1 + 1)) as Uc. set (count := u8 (i2 - i1 + 1)) in *.
  destruct (Z.eqb_spec (len mod count) 0) as [Em|Em]; cbn [negb].
  2:{ cbn. unfold E_TLVLEN, OKAY. split; [lia|intros; lia]. }
  cbn [wp]. split; [unfold OKAY; lia|]. intros _. split; [lia|]. split; [|split; auto].
  unfold is_u8 in *.
  assert (count * (len / count) = len) as EM.
  { pose proof (Z.div_mod len count ltac:(lia)). lia. }
  assert (0 <= len / count <= len) as EL.
  { split; [apply Z.div_pos; lia|]. apply Z.div_le_upper_bound; nia. }
  constructor; cbn; unfold is_u8; auto; try lia.
  intros _. exists p5. unfold t_count. cbn. repeat split; auto; try lia; try discriminate.
  intros Hle. assert (i2 - i1 + 1 = count \/ i2 - i1 + 1 = 256) as [EC|EC].
  { unfold count, u8 in *. zdm. lia. }
  - rewrite EC, EM. lia.
  - exfalso. apply E0. unfold count, u8. rewrite EC. reflexivity.
Qed.

Lemma tlv_in_mono lo hi lo' hi' t : lo' <= lo -> hi <= hi' -> tlv_in lo hi t -> tlv_in lo' hi' t.
Proof.
  intros ? ? [T1 T2 T3 T4 T5 T6]. constructor; auto. intros Hl. destruct (T6 Hl) as (v & ? & ? & ? & X & ?).
  exists v. repeat split; auto; lia.
Qed.
Lemma tlv_insert_Forall (Q : tlv -> Prop) t l : Q t -> Forall Q l -> Forall Q (tlv_insert t l).
Proof.
  intros Ht. induction 1 as [|x l Hx Hl IH]; cbn [tlv_insert]; [repeat constructor; auto|].
  destruct (_ <? _); constructor; auto.
Qed.
Lemma tlv_insert_len t l : zlen (tlv_insert t l) = zlen l + 1.
Proof.
  induction l as [|x l IH]; cbn [tlv_insert]; [reflexivity|].
  destruct (_ <? _); rewrite !zlen_cons; lia.
Qed.

(** what a successfully parsed block of TLVs is *)
Definition tlvs_ok (lo hi ac : Z) (t : tlv) : Prop :=
  tlv_in lo hi t /\ t_drop t = [] /\ (0 < ac -> t_idx1 t < ac /\ t_idx2 t < ac).

Lemma tlvblock_loop_wp lo eob ac fuel : forall ptr end_ prev acc m,
  0 <= lo <= ptr -> ptr <= eob -> end_ <= eob -> eob <= zlen pkt -> is_u8 ac -> eob - ptr < Z.of_nat fuel ->
  Forall (tlvs_ok lo eob ac) acc ->
  wp KF (fun '(res, p, acc', m') => res <= 0 /\ m_addr m' = m_addr m /\
           m_tlv m' = m_tlv m + zlen acc' - zlen acc /\ Forall (tlvs_ok lo eob ac) acc' /\
           (res = OKAY -> ptr <= p <= eob /\ end_ <= p))
    (tlvblock_loop alloc pkt fuel ptr end_ eob ac prev acc m).
Proof.
  induction fuel as [|fuel IH]; intros ptr end_ prev acc m H0 H1 H2 H3 Hac Hf Hacc; cbn [tlvblock_loop].
  - destruct (Z.leb_spec end_ ptr); [|lia]. cbn. unfold OKAY. repeat split; auto; lia.
  - destruct (Z.leb_spec end_ ptr); [cbn; unfold OKAY; repeat split; auto; lia|].
    eapply wp_bind; [apply parse_tlv_wp; auto; lia|]. intros [[res p] t] (R1 & R2).
    destruct (Z.eqb_spec res OKAY) as [->|]; cbn [negb].
    2:{ cbn. split; [auto|]. split; [auto|]. split; [lia|]. split; [auto|]. intros; exfalso; auto. }
    destruct (R2 eq_refl) as (Hp & Ht & Hd & Hi).
    destruct (alloc (m_n m)); cbn [negb].
    2:{ cbn. unfold E_OOM, OKAY. repeat split; auto; lia. }
    eapply wp_mono; [apply (IH p); [lia|lia|lia|lia|auto|lia|]|].
    + apply tlv_insert_Forall; auto. split; [|auto]. eapply tlv_in_mono; [| |exact Ht]; lia.
    + intros [[[res' p'] acc'] m'] (Q1 & Q2 & Q3 & Q4 & Q5). cbn [m_addr m_tlv m_add_tlv] in *.
      rewrite tlv_insert_len in Q3. repeat split; auto; try lia; intros HH; specialize (Q5 HH); lia.
Qed.

Lemma parse_tlvblock_wp lo ptr eob ac m : 0 <= lo <= ptr -> eob <= zlen pkt -> is_u8 ac ->
  wp KF (fun '(res, p, l, m') => res <= 0 /\ m_addr m' = m_addr m /\ m_tlv m' = m_tlv m + zlen l /\
           Forall (tlvs_ok lo eob ac) l /\ (res = OKAY -> ptr + 2 <= p <= eob) /\ (res <> OKAY -> l = []))
    (parse_tlvblock alloc pkt ptr eob ac m).
Proof.
  intros H0 H1 Hac. unfold parse_tlvblock.
  eapply wp_bind; [apply get_u16_wp; auto; unfold OKAY; lia|]. intros [[len p] e] (U & E & C).
  destruct (Z.gtb_spec (ptr + 2 + len) eob).
  { cbn. unfold E_EOB, OKAY. repeat split; auto; try lia; try constructor. unfold zlen; cbn; lia. }
  assert (p = ptr + 2) as ->.
  { destruct C as [(_ & _ & -> & _)|(N & ?)]; auto. exfalso.
    (* the error case needs fewer than two bytes *)
    lia. }
  eapply wp_bind; [apply (tlvblock_loop_wp lo eob ac); auto; try lia|].
  { unfold zlen in *. lia. }
  intros [[[res p'] acc] m'] (Q1 & Q2 & Q3 & Q4 & Q5).
  destruct (Z.eqb_spec res OKAY) as [->|]; cbn [negb].
  - cbn. unfold zlen in *; cbn [length] in *. specialize (Q5 eq_refl). unfold OKAY in *. repeat split; auto; try lia; congruence.
  - cbn. unfold zlen in *; cbn [length] in *. split; [auto|]. split; [auto|]. split; [lia|]. split; [constructor|].
    split; [intros; exfalso; auto|auto].
Qed.

Lemma zero16_ok : zlen zero16 = 16 /\ all_bytes zero16.
Proof. split; [reflexivity|]. unfold zero16. apply Forall_repeat. unfold is_u8; lia. Qed.

Lemma copy_in_ok (buf src : bytes) off : zlen buf = 16 -> all_bytes buf -> all_bytes src -> 0 <= off -> off + zlen src <= 16 ->
  exists b, copy_in buf off src = Some b /\ zlen b = 16 /\ all_bytes b.
Proof.
  intros L Hb Hs H0 H1. destruct (copy_in_Some src buf off ltac:(lia) ltac:(lia)) as (b & E & Lb & _).
  exists b. split; auto. split; [lia|]. exact (copy_in_Forall is_u8 _ _ _ _ Hb Hs E).
Qed.

Lemma parse_addrblock_wp al ptr eob : 1 <= al <= 16 -> 0 <= ptr <= eob -> eob <= zlen pkt ->
  wp KF (fun '(res, p, ab) => res <= 0 /\
     match ab with
     | None => res <> OKAY
     | Some a => res = OKAY /\ ptr + 2 <= p <= eob /\ ablock_in ptr eob a /\ ab_tlvs a = [] /\ ab_drop a = []
     end)
    (parse_addrblock pkt al ptr eob).
Proof.
  intros Hal H0 H1. unfold parse_addrblock.
  eapply wp_bind; [apply get_u8_adv; auto; unfold OKAY; lia|].
  intros [[num p1] e1] (Un & (A1 & A2 & A3) & A4).
  destruct (Z.eqb_spec num 0); [cbn; unfold E_EMPTY, OKAY; lia|].
  eapply wp_bind; [apply get_u8_adv; auto; lia|].
  intros [[fl p2] e2] (Ufl & (B1 & B2 & B3) & B4).
  apply (wp_bind _ (fun '(code, p, e, ms, ml, addr) => code <= 0 /\
     (code = OKAY -> adv p2 eob e2 p e /\ 0 <= ms < 16 /\ 0 <= ml <= 16 /\ zlen addr = 16 /\ all_bytes addr))).
  { destruct (flag fl 128).
    - eapply wp_bind; [apply get_u8_adv; auto; lia|]. intros [[ms p] e] (Um & Ad & _).
      destruct ((ms <? 1) || (RFC5444_MAX_ADDRLEN <=? ms) || (al <=? ms)) eqn:EC;
        [cbn; unfold E_HEADLEN, OKAY; lia|].
      unfold RFC5444_MAX_ADDRLEN in EC.
      destruct (Z.gtb_spec (p + ms) eob); [cbn; unfold E_EOB, OKAY; lia|].
      destruct Ad as (? & ? & ?).
      destruct (copy_out_Some pkt p (Z.to_nat ms) ltac:(lia) ltac:(lia)) as (h & Eh & Lh & _). rewrite Eh.
      destruct zero16_ok as [Z1 Z2].
      destruct (copy_in_ok zero16 h 0 Z1 Z2 (copy_out_Forall _ _ _ _ _ B Eh) ltac:(lia) ltac:(lia)) as (a & Ea & La & Ba).
      rewrite Ea. cbn. unfold OKAY. split; [lia|]. intros _.
      rewrite u8_id by (unfold is_u8; lia). unfold adv. repeat split; auto; lia.
    - cbn. unfold OKAY. split; [lia|]. intros _. unfold adv. pose proof zero16_ok as [Z1 Z2].
      split; [repeat split; auto; lia|]. split; [lia|]. split; [lia|]. split; auto. }
  intros [[[[[code p3] e3] ms] ml] addr] (C0 & C).
  destruct (Z.eqb_spec code OKAY) as [Ec|]; cbn [negb]; [|cbn; auto].
  destruct (C Ec) as ((C1 & C2 & C3) & Cms & Cml & La & Ba).
  apply (wp_bind _ (fun '(code, p, e, ml, addr) => code <= 0 /\
     (code = OKAY -> adv p3 eob e3 p e /\ 0 <= ml <= 255 /\ zlen addr = 16 /\ all_bytes addr))).
  { destruct (_ =? 32).
    - eapply wp_bind; [apply get_u8_adv; auto; lia|]. intros [[z p] e] (Uz & Ad & _). cbn. unfold OKAY.
      split; [lia|]. intros _. split; auto. pose proof (u8_range (ml - z)) as X. unfold is_u8 in X.
      split; [lia|auto].
    - destruct (_ =? 64).
      + eapply wp_bind; [apply get_u8_adv; auto; lia|]. intros [[tl p] e] (Um & Ad & _).
        destruct ((tl <? 1) || (RFC5444_MAX_ADDRLEN <=? tl) || (al <=? tl)) eqn:EC;
          [cbn; unfold E_TAILLEN, OKAY; lia|].
        unfold RFC5444_MAX_ADDRLEN in EC.
        destruct (Z.gtb_spec (p + tl) eob); [cbn; unfold E_EOB, OKAY; lia|].
        destruct Ad as (? & ? & ?).
        destruct (copy_out_Some pkt p (Z.to_nat tl) ltac:(lia) ltac:(lia)) as (h & Eh & Lh & _). rewrite Eh.
        destruct (copy_in_ok addr h (al - tl) La Ba (copy_out_Forall _ _ _ _ _ B Eh) ltac:(lia) ltac:(lia)) as (a & Ea & La' & Ba').
        rewrite Ea. cbn. unfold OKAY. split; [lia|]. intros _.
        pose proof (u8_range (ml - tl)) as X. unfold is_u8 in X. unfold adv. repeat split; auto; try lia.
      + destruct (negb _); cbn; unfold E_TAILFLAGS, OKAY; split; try lia. intros _.
        unfold adv. repeat split; auto; lia. }
  intros [[[[code' p4] e4] ml'] addr'] (D0 & D).
  destruct (Z.eqb_spec code' OKAY) as [Ec'|]; cbn [negb]; [|cbn; auto].
  destruct (D Ec') as ((D1 & D2 & D3) & Dml & La' & Ba').
  destruct (Z.gtb_spec (p4 + ml' * num) eob); [cbn; unfold E_EOB, OKAY; lia|].
  unfold is_u8 in *.
  apply (wp_bind _ (fun '(code, p, plen, pre) => code <= 0 /\
     (code = OKAY -> p4 + ml' * num <= p /\ forall q, pre = Some q -> q = p4 + ml' * num /\ p = q + num))).
  { destruct (_ =? 0); [cbn; unfold OKAY; repeat split; try lia; discriminate|].
    destruct (_ =? 16).
    - destruct (zget pkt (p4 + ml' * num)) eqn:EG.
      + cbn. unfold OKAY. repeat split; try lia; discriminate.
      + cbn. apply zget_None in EG. nia.
    - destruct (_ =? 8); cbn; unfold OKAY, E_PREFIXFLAGS; (split; [lia|]); intros; [|lia].
      split; [lia|]. intros q [= <-]. lia. }
  intros [[[code'' p5] plen] pre] (E0 & E).
  destruct (Z.eqb_spec code'' OKAY) as [Ec''|]; cbn [negb]; [|cbn; auto].
  destruct (E Ec'') as (E1 & E2).
  destruct (Z.gtb_spec p5 eob); [cbn; unfold E_EOB, OKAY; lia|].
  destruct (Z.eqb_spec e4 OKAY) as [Ee|]; cbn [negb]; [|cbn; auto].
  cbn. split; [unfold OKAY; lia|]. split; auto.
  specialize (D3 Ee). specialize (C3 D3). pose proof (B3 C3) as E1'. specialize (B4 C3). specialize (A4 E1').
  split; [nia|]. split; [|auto].
  constructor; cbn; auto; try lia.
Qed.

Lemma ablock_in_mono lo hi lo' hi' a : lo' <= lo -> hi <= hi' -> ablock_in lo hi a -> ablock_in lo' hi' a.
Proof.
  intros ? ? [I1 I2 I3 I4 I5 I6 I7]. constructor; auto; try lia.
  eapply Forall_impl; [|exact I7]. intros t. apply tlv_in_mono; lia.
Qed.

Definition ablock_ok (lo hi : Z) (a : ablock) : Prop :=
  ablock_in lo hi a /\ Forall (tlvs_ok lo hi (ab_num a)) (ab_tlvs a) /\ ab_drop a = [].

Lemma sum_tlvs_app a b : sum_tlvs (a ++ b) = sum_tlvs a + sum_tlvs b.
Proof. unfold sum_tlvs. induction a as [|x a IH]; cbn [app fold_right]; [lia|]. rewrite IH. lia. Qed.
Lemma sum_tlvs_1 x : sum_tlvs [x] = zlen (ab_tlvs x).
Proof. unfold sum_tlvs. cbn [fold_right]. lia. Qed.

Lemma addrblocks_loop_wp lo al end_ fuel : forall ptr acc m,
  1 <= al <= 16 -> 0 <= lo <= ptr -> end_ <= zlen pkt -> end_ - ptr < Z.of_nat fuel -> Forall (ablock_ok lo end_) acc ->
  wp KF (fun '(res, p, acc', m') => res <= 0 /\ Forall (ablock_ok lo end_) acc' /\
      m_addr m' = m_addr m + zlen acc' - zlen acc /\ m_tlv m' = m_tlv m + sum_tlvs acc' - sum_tlvs acc /\
      (res = OKAY -> end_ <= p /\ (ptr <= end_ -> p = end_)))
    (addrblocks_loop alloc pkt fuel al ptr end_ acc m).
Proof.
  induction fuel as [|fuel IH]; intros ptr acc m Hal H0 H1 Hf Hacc; cbn [addrblocks_loop].
  - destruct (Z.leb_spec end_ ptr); [|lia]. cbn. unfold OKAY. repeat split; auto; lia.
  - destruct (Z.leb_spec end_ ptr); [cbn; unfold OKAY; repeat split; auto; lia|].
    destruct (alloc (m_n m)); cbn [negb].
    2:{ cbn. unfold E_OOM, OKAY. repeat split; auto; lia. }
    eapply wp_bind; [apply parse_addrblock_wp; auto; lia|]. intros [[res p] ab] (R1 & R2).
    destruct ab as [ab|].
    2:{ cbn. split; [auto|]. split; [auto|]. split; [lia|]. split; [lia|]. intros; exfalso; auto. }
    destruct R2 as (-> & Hp & Hab & Et & Ed).
    pose proof (ai_num _ _ _ Hab) as Hnum.
    eapply wp_bind; [apply (parse_tlvblock_wp lo); auto; unfold is_u8; try lia|].
    intros [[[res' p'] l] m'] (S1 & S2 & S3 & S4 & S5 & S6). cbn [m_add_addr m_addr m_tlv] in *.
    destruct (Z.eqb_spec res' OKAY) as [->|Nr]; cbn [negb].
    2:{ specialize (S6 Nr). subst l. cbn. unfold zlen in S3; cbn [length] in S3.
        split; [auto|]. split; [auto|]. split; [lia|]. split; [lia|]. intros; exfalso; auto. }
    specialize (S5 eq_refl).
    set (a2 := ab_with_tlvs ab l (p' - ab_size ab - ab_ptr ab)).
    eapply wp_mono; [apply (IH p'); auto; try lia|].
    + apply Forall_app. split; auto. constructor; [|constructor]. unfold a2. split; [|split].
      * destruct Hab as [J1 J2 J3 J4 J5 J6 J7]. constructor; cbn; auto; try lia.
        eapply Forall_impl; [|exact S4]. intros t [? _]. auto.
      * cbn. auto.
      * cbn. auto.
    + intros [[[res2 p2] acc2] m2] (Q1 & Q2 & Q3 & Q4 & Q5).
      rewrite zlen_app in Q3. rewrite sum_tlvs_app, sum_tlvs_1 in Q4. subst a2. cbn [ab_tlvs ab_with_tlvs] in Q4.
      rewrite zlen_cons, zlen_nil in Q3. split; [auto|]. split; [auto|]. split; [lia|]. split; [lia|].
      intros HH. destruct (Q5 HH) as [? X]. split; auto. intros. apply X. lia.
Qed.

Lemma from_binary_prefix_ok b ty p : zlen b <= 16 -> exists r a, from_binary_prefix b ty p = Some (r, a).
Proof.
  intros L. unfold from_binary_prefix. pose proof (zlen_nonneg b).
  match goal with |- context [let '(ty, len) := ?e in _] =>
    assert (snd e <= zlen b) as HL; [|destruct e as [ty' len]; cbn [snd] in HL] end.
  { repeat match goal with |- context [if ?c then _ else _] => destruct c eqn:? end; cbn [snd]; lia. }
  destruct (copy_in_Some (firstn (Z.to_nat len) b) zero16 0) as (ad & -> & _ & _).
  - lia.
  - change (zlen zero16) with 16. unfold zlen. rewrite firstn_length. unfold zlen in *. lia.
  - eauto.
Qed.

Lemma flag_addr_len fl : is_u8 fl -> 1 <= Z.land fl 15 + 1 <= 16.
Proof.
  intros U. assert (0 <= Z.land fl 15) by (apply Z.land_nonneg; unfold is_u8 in U; lia).
  change 15 with (Z.ones 4) in *. rewrite Z.land_ones in * by lia. change (2 ^ 4) with 16 in *.
  pose proof (Z.mod_pos_bound fl 16 ltac:(lia)). lia.
Qed.

(** [hdr_at start h]: the size field of the header is the 16 bit number at
    bytes 2 and 3 *)
Definition size_field (start size : Z) : Prop :=
  exists h l, zget pkt (start + 2) = Some h /\ zget pkt (start + 3) = Some l /\ size = 256 * h + l.

Lemma parse_msgheader_wp start eob : 0 <= start <= eob -> eob <= zlen pkt ->
  wp KF (fun '(res, p, h) => res <= 0 /\ 0 <= mh_size h < 65536 /\ 1 <= mh_addr_len h <= 16 /\
     (res = OKAY -> start + 4 <= p <= eob /\ start + mh_size h <= eob /\ size_field start (mh_size h)))
    (parse_msgheader pkt start eob).
Proof.
  intros H0 H1. unfold parse_msgheader.
  eapply wp_bind; [apply get_u8_adv; auto; unfold OKAY; lia|].
  intros [[ty p1] e1] (Uty & (A1 & A2 & A3) & A4).
  eapply wp_bind; [apply get_u8_adv; auto; lia|].
  intros [[fl p2] e2] (Ufl & (B1 & B2 & B3) & B4).
  eapply wp_bind; [apply get_u16_wp; auto; lia|]. intros [[size p3] e3] (Us & E3 & C3).
  pose proof (flag_addr_len fl Ufl) as Hal. set (al := Z.land fl 15 + 1) in *.
  assert (p3 <= eob \/ e3 <> OKAY) as Hp3 by (destruct C3 as [(?&?&?&?&?)|(?&?&?)]; [left|right]; auto).
  assert (p2 <= p3 <= p2 + 2) as Hp3' by (destruct C3 as [(?&?&?&?&?)|(?&?&?)]; lia).
  assert (e3 = OKAY -> size_field start size /\ p3 = start + 4 /\ p3 <= eob) as Hsz.
  { intros ->. destruct C3 as [(_ & Ee2 & -> & ? & (h & l & G1 & G2 & ->))|(N & _)]; [|exfalso; auto].
    specialize (B4 Ee2). specialize (B3 Ee2). specialize (A4 B3). subst p2 p1.
    split; [|split; lia]. exists h, l. replace (start + 2) with (start + 1 + 1) by lia.
    replace (start + 3) with (start + 1 + 1 + 1) by lia. auto. }
  destruct (flag fl 128 && (p3 + al >? eob)) eqn:EO.
  { cbn. unfold E_EOB, OKAY. repeat split; auto; lia. }
  apply (wp_bind _ (fun '(orig, p) => p3 <= p /\ (p3 <= eob -> p <= eob))).
  { destruct (flag fl 128).
    - cbn [andb] in EO. destruct (Z.gtb_spec (p3 + al) eob); [discriminate|].
      destruct (copy_out_Some pkt p3 (Z.to_nat al) ltac:(lia) ltac:(lia)) as (b & Eb & Lb & _). rewrite Eb.
      destruct (from_binary_prefix_ok b 0 255 ltac:(lia)) as (r & a & ->). cbn. lia.
    - cbn. lia. }
  intros [orig p4] (D1 & D2).
  set (adv' := fun (p e p' e' : Z) => e' <= 0 /\ p <= p' /\ (e' = OKAY -> e = OKAY) /\ (p <= eob -> p' <= eob)).
  assert (forall p e, 0 <= p -> e <= 0 -> wp KF (fun '(v, p', e') => adv' p e p' e') (get_u8 pkt p eob e)) as G8.
  { intros p e P0 Pe. eapply wp_mono; [apply get_u8_wp; auto|]. intros [[v p'] e'] (? & ? & C). unfold adv'.
    destruct C as [(-> & -> & -> & ? & ?)|(? & -> & _)]; repeat split; auto; try lia; intros; exfalso; auto. }
  assert (forall p e, 0 <= p -> e <= 0 -> wp KF (fun '(v, p', e') => adv' p e p' e') (get_u16 pkt p eob e)) as G16.
  { intros p e P0 Pe. unfold get_u16. eapply wp_bind; [apply G8; auto|]. intros [[? ?] ?] (?&?&?&?).
    eapply wp_bind; [apply G8; auto; lia|]. intros [[? ?] ?] (?&?&?&?). cbn. unfold adv'. repeat split; auto; lia. }
  apply (wp_bind _ (fun '(v, p', e') => adv' p4 e3 p' e')).
  { destruct (flag fl 64); [|cbn; unfold adv'; repeat split; auto; lia].
    eapply wp_bind; [apply G8; auto; lia|]. now intros [[? ?] ?] ?. }
  intros [[hl p5] e5] (I1 & I2 & I3 & I4).
  apply (wp_bind _ (fun '(v, p', e') => adv' p5 e5 p' e')).
  { destruct (flag fl 32); [|cbn; unfold adv'; repeat split; auto; lia].
    eapply wp_bind; [apply G8; auto; lia|]. now intros [[? ?] ?] ?. }
  intros [[hc p6] e6] (J1 & J2 & J3 & J4).
  apply (wp_bind _ (fun '(v, p', e') => adv' p6 e6 p' e')).
  { destruct (flag fl 16); [|cbn; unfold adv'; repeat split; auto; lia].
    eapply wp_bind; [apply G16; auto; lia|]. now intros [[? ?] ?] ?. }
  intros [[sn p7] e7] (K1 & K2 & K3 & K4).
  destruct (Z.gtb_spec (start + size) eob).
  { cbn. unfold E_EOB, OKAY. repeat split; auto; lia. }
  cbn. split; [auto|]. split; [lia|]. split; [lia|]. intros He.
  destruct (Hsz ltac:(auto)) as (S1 & -> & S3). repeat split; auto; lia.
Qed.

Lemma parse_message_wp start eob m : 0 <= start <= eob -> eob <= zlen pkt ->
  wp KF (fun '(res, msg, m') => res <= 0 /\ ms_start msg = start /\
     let hi := start + mh_size (ms_hdr msg) in
     m_addr m' = m_addr m + zlen (ms_addrs msg) /\
     m_tlv m' = m_tlv m + sum_tlvs (ms_addrs msg) + zlen (ms_tlvs msg) /\
     (res = OKAY -> 6 <= mh_size (ms_hdr msg) /\ hi <= eob /\ size_field start (mh_size (ms_hdr msg)) /\
        1 <= mh_addr_len (ms_hdr msg) <= 16 /\
        Forall (tlvs_ok start hi 0) (ms_tlvs msg) /\ Forall (ablock_ok start hi) (ms_addrs msg)))
    (parse_message alloc pkt start eob m).
Proof.
  intros H0 H1. unfold parse_message.
  eapply wp_bind; [apply parse_msgheader_wp; auto|]. intros [[e p] h] (E & Hs & Hal & Hok).
  destruct (Z.eqb_spec e OKAY) as [->|]; cbn [negb].
  2:{ cbn. unfold zlen; cbn [length]. repeat split; auto; try lia; intros; exfalso; auto. }
  destruct (Hok eq_refl) as (Hp & Hsz & Hsf).
  eapply wp_bind; [apply (parse_tlvblock_wp start); auto; unfold is_u8; try lia|].
  intros [[[e2 p2] l] m2] (S1 & S2 & S3 & S4 & S5 & S6).
  destruct (Z.eqb_spec e2 OKAY) as [->|N]; cbn [negb].
  2:{ specialize (S6 N). subst l. cbn. unfold zlen in *; cbn [length] in *.
      repeat split; auto; try lia; intros; exfalso; auto. }
  specialize (S5 eq_refl).
  eapply wp_bind; [apply (addrblocks_loop_wp start); auto; try lia|].
  { unfold zlen in *. lia. }
  intros [[[e3 p3] abs] m3] (Q1 & Q2 & Q3 & Q4 & Q5). cbn.
  unfold sum_tlvs, zlen in *. cbn [fold_right length] in *.
  repeat split; auto; lia.
Qed.
End P.
