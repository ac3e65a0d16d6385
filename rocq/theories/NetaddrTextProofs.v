(** Text round trips and ACL parsing. *)
From Verif Require Import Base BitsModel BitsSpec BitsProofs BufLemmas StrBase NetaddrModel NetaddrSpec NetaddrProofs.

(** * Hex text *)
Fixpoint mac_text (b : bytes) (sep : Z) : bytes :=
  match b with
  | [] => []
  | x :: b' => hexchar (Z.shiftr x 4) :: hexchar (Z.land x 15) ::
      match b' with [] => [] | _ => (if sep =? 0 then [] else [sep]) ++ mac_text b' sep end
  end.

Lemma mac_text_nil b sep : mac_text b sep = [] -> b = [].
Proof. destruct b; cbn; [auto|discriminate]. Qed.

Lemma mac_to_string_text b sep size : (if sep =? 0 then 2 else 3) * zlen b + 1 <= size ->
  mac_to_string size b sep = mac_text b sep.
Proof.
  revert size; induction b as [|x b IH]; intros size H; cbn [mac_to_string mac_text]; auto.
  rewrite zlen_cons in H. pose proof (zlen_nonneg b).
  destruct (Z.geb_spec size 3); [|destruct (sep =? 0); lia].
  rewrite IH by (destruct (sep =? 0); lia).
  destruct b as [|y b]; [reflexivity|]. destruct (mac_text (y :: b) sep) eqn:E; [discriminate|reflexivity].
Qed.

Lemma hexchar_ok h : 0 <= h < 16 -> read_hexdigit (hexchar h) = h /\ 
  ((48 <= hexchar h <= 57) \/ (97 <= hexchar h <= 102)).
Proof.
  intros H. assert (C : forallb (fun h => (read_hexdigit (hexchar h) =? h) && (((48 <=? hexchar h) && (hexchar h <=? 57)) || ((97 <=? hexchar h) && (hexchar h <=? 102)))) (zrange 0 16) = true) by (vm_compute; reflexivity).
  apply zsweep with (x := h) in C; [|lia]. lia.
Qed.

Lemma nibbles x : is_u8 x -> 0 <= Z.shiftr x 4 < 16 /\ 0 <= Z.land x 15 < 16 /\ Z.shiftl (Z.shiftr x 4) 4 + Z.land x 15 = x.
Proof.
  unfold is_u8; intros. rewrite Z.shiftl_mul_pow2, Z.shiftr_div_pow2 by lia. change 15 with (Z.ones 4).
  rewrite Z.land_ones by lia. change (2 ^ 4) with 16. zdm; lia.
Qed.

Lemma bin_from_hex_text b sep : all_bytes b -> b <> [] -> sep = 0 \/ sep = 58 \/ sep = 45 ->
  bin_from_hex (length b) (mac_text b sep) sep = Some (0, b).
Proof.
  intros Hb Hn Hs. induction b as [|x b IH]; [congruence|]. inversion_clear Hb as [|? ? Ux Hb'].
  destruct (nibbles x Ux) as (N1 & N2 & N3). destruct (hexchar_ok _ N1) as [R1 _], (hexchar_ok _ N2) as [R2 _].
  cbn [length bin_from_hex mac_text]. rewrite R1, R2.
  destruct (Z.eqb_spec (Z.shiftr x 4) (-1)); [lia|]. destruct (Z.geb_spec (Z.land x 15) 0); [|lia]. rewrite N3.
  destruct b as [|y b]; [cbn; now rewrite u8_id|].
  rewrite u8_id by auto. specialize (IH Hb' ltac:(discriminate)).
  destruct Hs as [->|[->| ->]]; cbn [Z.eqb app negb]; try (rewrite IH; reflexivity).
Qed.

Definition hexlow (c : Z) : Prop := 48 <= c <= 57 \/ 97 <= c <= 102.
Lemma mac_text_chars b sep : all_bytes b -> Forall (fun c => hexlow c \/ (sep <> 0 /\ c = sep)) (mac_text b sep).
Proof.
  intros Hb. induction b as [|x b IH]; cbn [mac_text]; [constructor|]. inversion_clear Hb as [|? ? Ux Hb'].
  destruct (nibbles x Ux) as (N1 & N2 & N3). destruct (hexchar_ok _ N1) as [_ R1], (hexchar_ok _ N2) as [_ R2].
  constructor; [left; exact R1|]. constructor; [left; exact R2|].
  destruct b; [constructor|]. destruct (Z.eqb_spec sep 0); cbn [app]; auto. 
Qed.
Lemma mac_text_len b sep : b <> [] -> zlen (mac_text b sep) = 2 * zlen b + (if sep =? 0 then 0 else zlen b - 1).
Proof.
  induction b as [|x b IH]; [congruence|]. intros _. cbn [mac_text]. rewrite !zlen_cons.
  destruct b as [|y b]; [change (zlen (@nil Z)) with 0; destruct (sep =? 0); lia|].
  rewrite zlen_app, IH by discriminate. rewrite !zlen_cons. destruct (sep =? 0); unfold zlen at 1; cbn [length]; lia.
Qed.

Fixpoint cnt (c : Z) (l : bytes) : Z := match l with [] => 0 | x :: l' => (if x =? c then 1 else 0) + cnt c l' end.
Lemma cnt_app c a b : cnt c (a ++ b) = cnt c a + cnt c b.
Proof. induction a; cbn [cnt app]; lia. Qed.
Lemma cnt_zero c l : Forall (fun x => x <> c) l -> cnt c l = 0.
Proof. induction 1; cbn [cnt]; auto. destruct (Z.eqb_spec x c); lia. Qed.
Lemma cnt_nonneg c l : 0 <= cnt c l.
Proof. induction l; cbn [cnt]; [lia|]. destruct (_ =? _); lia. Qed.
Lemma mac_text_cnt b sep c : all_bytes b -> b <> [] -> c = 45 \/ c = 58 ->
  cnt c (mac_text b sep) = if sep =? c then zlen b - 1 else 0.
Proof.
  intros Hb Hn Hc. induction b as [|x b IH]; [congruence|]. inversion_clear Hb as [|? ? Ux Hb'].
  destruct (nibbles x Ux) as (N1 & N2 & N3). destruct (hexchar_ok _ N1) as [_ R1], (hexchar_ok _ N2) as [_ R2].
  cbn [mac_text cnt]. rewrite zlen_cons.
  destruct (Z.eqb_spec (hexchar (Z.shiftr x 4)) c); [lia|]. destruct (Z.eqb_spec (hexchar (Z.land x 15)) c); [lia|].
  destruct b as [|y b]; [change (zlen (@nil Z)) with 0; cbn [cnt]; destruct (sep =? c); lia|].
  rewrite cnt_app, IH by (auto; discriminate). rewrite zlen_cons.
  destruct (Z.eqb_spec sep 0), (Z.eqb_spec sep c); cbn [cnt]; try lia.
  - destruct (Z.eqb_spec sep c); lia.
  - destruct (Z.eqb_spec sep c); lia.
Qed.

(** * Scanning *)
Lemma scan_counts l : forall s,
  sc_colon (fold_left scan_step l s) = sc_colon s + cnt 58 l /\
  sc_minus (fold_left scan_step l s) = sc_minus s + cnt 45 l /\
  sc_point (fold_left scan_step l s) = sc_point s || (0 <? cnt 46 l).
Proof.
  induction l as [|c l IH]; intros s; cbn [fold_left cnt].
  - rewrite orb_false_r. lia.
  - destruct (IH (scan_step s c)) as (-> & -> & ->). cbn [scan_step sc_colon sc_minus sc_point].
    pose proof (cnt_nonneg 46 l).
    destruct (Z.eqb_spec c 58), (Z.eqb_spec c 45), (Z.eqb_spec c 46); try lia; repeat split; try lia.
    all: destruct (sc_point s); cbn [orb]; try reflexivity; try (symmetry; apply Z.ltb_lt; lia).
Qed.
Lemma scan_coloncolon_ge l : forall s, sc_coloncolon s = true -> sc_coloncolon (fold_left scan_step l s) = true.
Proof.
  induction l as [|c l IH]; intros s H; cbn [fold_left]; auto. apply IH. cbn. rewrite H. now destruct (c =? 58).
Qed.
Lemma scan_coloncolon_true l r : sc_coloncolon (scan_all (l ++ 58 :: 58 :: r)) = true.
Proof.
  unfold scan_all. rewrite fold_left_app. cbn [fold_left]. apply scan_coloncolon_ge.
  cbn. now rewrite orb_true_r.
Qed.
Lemma scan_coloncolon_false l : forall s, sc_coloncolon s = false -> sc_last s = false ->
  (forall a b, l <> a ++ 58 :: 58 :: b) -> sc_coloncolon (fold_left scan_step l s) = false.
Proof.
  remember (length l) as n eqn:En. assert (Hn : (length l <= n)%nat) by lia. clear En. revert l Hn.
  induction n as [|n IH]; intros l Hn s H1 H2 HN.
  - destruct l; [auto|cbn in Hn; lia].
  - destruct l as [|c l]; [auto|]. cbn [fold_left]. destruct (Z.eqb_spec c 58) as [->|Hc].
    + destruct l as [|d l]; [cbn; now rewrite H1, H2|].
      destruct (Z.eqb_spec d 58) as [->|Hd]; [exfalso; apply (HN [] l); reflexivity|].
      cbn [fold_left]. apply IH.
      * cbn in Hn; lia.
      * cbn. destruct (Z.eqb_spec d 58); [contradiction|]. now rewrite H1, H2.
      * cbn. now apply Z.eqb_neq.
      * intros a b E. apply (HN (58 :: d :: a) b). cbn. now rewrite E.
    + apply IH; [cbn in Hn; lia| | |].
      * cbn. destruct (Z.eqb_spec c 58); [contradiction|]. auto.
      * cbn. now apply Z.eqb_neq.
      * intros a b E. apply (HN (c :: a) b). cbn. now rewrite E.
Qed.
Lemma mac_text_no_coloncolon b sep : all_bytes b -> forall l r, mac_text b sep <> l ++ 58 :: 58 :: r.
Proof.
  intros Hb. induction b as [|x b IH]; cbn [mac_text]; intros l r.
  - destruct l; discriminate.
  - inversion_clear Hb as [|? ? Ux Hb'].
    destruct (nibbles x Ux) as (N1 & N2 & N3). destruct (hexchar_ok _ N1) as [_ R1], (hexchar_ok _ N2) as [_ R2].
    intros E. destruct l as [|c1 l]; cbn [app] in E; [injection E as E1 E2; lia|]. injection E as E1 E.
    destruct l as [|c2 l]; cbn [app] in E; [injection E as E2 E3; lia|]. injection E as E2 E.
    destruct b as [|y b]; [destruct l; discriminate|].
    destruct (Z.eqb_spec sep 0).
    + cbn [app] in E. apply (IH Hb' l r E).
    + cbn [app] in E. destruct l as [|c3 l]; cbn [app] in E.
      * injection E as E3 E5 _.
        inversion_clear Hb' as [|? ? Uy Hb''].
        destruct (nibbles y Uy) as (M1 & M2 & M3). destruct (hexchar_ok _ M1) as [_ R3]. lia.
      * injection E as E3 E. apply (IH Hb' l r E).
Qed.

(** * from_string on printed text *)
Definition okaddr (c : Z) : bool := negb (isspace c) && negb (c =? 47) .

Lemma rtrim1_id s : forallb (fun c => negb (isspace c)) s = true -> rtrim1 s = s.
Proof.
  induction s as [|c s IH]; cbn [rtrim1 forallb]; auto. rewrite andb_true_iff. intros [Hc Hs].
  rewrite IH by auto. destruct s as [|d [|e s]]; auto. cbn in Hs.
  destruct (isspace d); [discriminate|reflexivity].
Qed.
Lemma str_trim_id s : forallb (fun c => negb (isspace c)) s = true -> str_trim s = s.
Proof.
  intros H. unfold str_trim. rewrite drop_while_none.
  - now apply rtrim1_id.
  - intros c r ->. cbn in H. now destruct (isspace c).
Qed.

Lemma dec_str_facts p : is_u8 p -> strtoul10 (dec_str p) = (p, []) /\ drop_while isspace (dec_str p) = dec_str p /\
  dec_str p <> [] /\ (length (dec_str p) <= 3)%nat /\ forallb isdigit (dec_str p) = true.
Proof.
  unfold is_u8. intros Hp.
  assert (C : forallb (fun p => let d := dec_str p in (fst (strtoul10 d) =? p) && str_eqb (snd (strtoul10 d)) [] &&
     str_eqb (drop_while isspace d) d && negb (str_eqb d []) && (length d <=? 3)%nat && forallb isdigit d) (zrange 0 256) = true) by (vm_compute; reflexivity).
  apply zsweep with (x := p) in C; [|lia]. cbv zeta in C. rewrite !andb_true_iff in C.
  destruct C as [[[[[C1 C2] C3] C4] C5] C6]. apply Z.eqb_eq in C1. rewrite str_eqb_eq in C2, C3.
  repeat split; auto.
  - destruct (strtoul10 (dec_str p)); cbn in *; congruence.
  - intros E. rewrite E in C4. discriminate.
  - apply Nat.leb_le; auto.
Qed.

Lemma find_known s : (exists c, In c s /\ (c = 45 \/ c = 46 \/ c = 58)) ->
  find (fun kp => strcase_eqb s (fst kp)) known_prefixes = None.
Proof.
  intros (c & Hc & Hs).
  assert (K : forall k, forallb (fun c => (97 <=? c) && (c <=? 122) || (48 <=? c) && (c <=? 57)) k = true -> strcase_eqb s k = false).
  { intros k Hk. destruct (strcase_eqb s k) eqn:E; auto. unfold strcase_eqb in E. apply str_eqb_eq in E.
    assert (I : In (tolower c) (map tolower k)) by (rewrite <- E; now apply in_map).
    apply in_map_iff in I as (d & Hd & Id). rewrite forallb_forall in Hk. specialize (Hk d Id).
    assert (tolower c = c) by (unfold tolower; destruct Hs as [->|[->| ->]]; reflexivity).
    assert (tolower d = d) by (unfold tolower; destruct (Z.leb_spec 65 d), (Z.leb_spec d 90); cbn; lia). lia. }
  cbn [find known_prefixes fst]. rewrite !K by (vm_compute; reflexivity). reflexivity.
Qed.

Lemma from_string_plain p4 p6 a : forallb okaddr a = true -> (exists c, In c a /\ (c = 45 \/ c = 46 \/ c = 58)) ->
  (2 <= length a <= 57)%nat ->
  from_string p4 p6 a = match parse_addr p4 p6 a with
            | None => None
            | Some (ty, mx, ad) => Some {| na_addr := ad; na_type := ty; na_plen := mx |}
            end.
Proof.
  intros Ho Hs Hl. unfold from_string.
  destruct (str_eqb a (zs "-")) eqn:E; [apply str_eqb_eq in E; subst; cbn in Hl; lia|].
  rewrite find_known by auto. change (Z.to_nat (NETADDR_STR_LEN - 1)) with 61%nat. rewrite firstn_all2 by lia.
  assert (Hns : forallb (fun c => negb (isspace c)) a = true).
  { rewrite forallb_forall in *. intros c Hc. specialize (Ho c Hc). unfold okaddr in Ho. now destruct (isspace c). }
  rewrite str_trim_id by auto.
  assert (He : forallb (fun c => negb (ends_addr c)) a = true).
  { rewrite forallb_forall in *. intros c Hc. specialize (Ho c Hc). unfold okaddr, ends_addr in *.
    destruct (isspace c), (c =? 47); auto. }
  pose proof (take_while_app_all _ a [] He) as T. pose proof (drop_while_app_all _ a [] He) as D.
  rewrite app_nil_r in T, D. cbn [take_while drop_while] in T, D. rewrite app_nil_r in T. rewrite T, D. reflexivity.
Qed.

Lemma from_string_prefix p4 p6 a p : forallb okaddr a = true -> (exists c, In c a /\ (c = 45 \/ c = 46 \/ c = 58)) ->
  (2 <= length a <= 57)%nat -> is_u8 p ->
  from_string p4 p6 (a ++ 47 :: dec_str p) = match parse_addr p4 p6 a with
            | None => None
            | Some (ty, mx, ad) => if p >? mx then None else Some {| na_addr := ad; na_type := ty; na_plen := p |}
            end.
Proof.
  intros Ho Hs Hl Up. destruct (dec_str_facts p Up) as (D1 & D2 & D3 & D4 & D5). unfold from_string.
  destruct (str_eqb (a ++ 47 :: dec_str p) (zs "-")) eqn:E.
  { apply str_eqb_eq in E. apply (f_equal (@length Z)) in E. rewrite app_length in E. cbn in E. lia. }
  rewrite find_known.
  2:{ destruct Hs as (c & Hc & Hs). exists c. split; auto. apply in_or_app. now left. }
  change (Z.to_nat (NETADDR_STR_LEN - 1)) with 61%nat.
  rewrite firstn_all2 by (rewrite app_length; cbn [length]; lia).
  rewrite str_trim_id.
  2:{ rewrite forallb_app. cbn [forallb]. apply andb_true_iff; split; [|apply andb_true_iff; split; [reflexivity|]].
      - rewrite forallb_forall in *. intros c Hc. specialize (Ho c Hc). unfold okaddr in Ho. now destruct (isspace c).
      - rewrite forallb_forall in *. intros c Hc. specialize (D5 c Hc). unfold isdigit, isspace in *. lia. }
  assert (He : forallb (fun c => negb (ends_addr c)) a = true).
  { rewrite forallb_forall in *. intros c Hc. specialize (Ho c Hc). unfold okaddr, ends_addr in *.
    destruct (isspace c), (c =? 47); auto. }
  rewrite take_while_app_all, drop_while_app_all by auto. cbn [take_while drop_while].
  change (negb (ends_addr 47)) with false. cbn iota. rewrite app_nil_r.
  cbn [drop_while]. change (isspace 47) with false. cbn iota. change (47 =? 47) with true. cbn iota.
  rewrite D2. destruct (dec_str p) as [|d ds] eqn:Ed; [congruence|]. rewrite D1. cbn iota beta.
  destruct (parse_addr p4 p6 a) as [[[ty mx] ad]|]; auto.
  assert (S32 : s32 p = p).
  { unfold s32. unfold is_u8 in Up. rewrite u32_id by (unfold is_u32; lia). destruct (Z.ltb_spec p 2147483648); lia. }
  rewrite S32. unfold is_u8 in Up. destruct (Z.eqb_spec p (-1)); [lia|]. rewrite andb_false_r.
  destruct (Z.ltb_spec p 0); [lia|]. cbn [orb]. rewrite u8_id by auto. reflexivity.
Qed.

Lemma okaddr_chars a : Forall (fun c => hexcolon c \/ c = 45) a -> forallb okaddr a = true.
Proof.
  intros H. apply forallb_forall. rewrite Forall_forall in H. intros c Hc. specialize (H c Hc).
  unfold hexcolon in H. unfold okaddr, isspace. lia.
Qed.

Lemma pad16_eq a n : length a = 16%nat -> (n <= 16)%nat -> (forall i, Z.of_nat n <= i < 16 -> zget a i = Some 0) ->
  pad16 (firstn n a) = a.
Proof.
  intros L Hn H. unfold pad16. rewrite firstn_length, L, Nat.min_l by lia.
  apply zget_ext.
  - rewrite zlen_app, zlen_repeat, zlen_firstn by (unfold zlen; lia). unfold zlen. lia.
  - rewrite zlen_app, zlen_repeat, zlen_firstn by (unfold zlen; lia). intros i Hi.
    rewrite zget_app, zlen_firstn by (unfold zlen; lia). destruct (Z.ltb_spec i (Z.of_nat n)).
    + rewrite zget_firstn. destruct (Z.ltb_spec i (Z.of_nat n)); [reflexivity|lia].
    + rewrite zget_repeat. destruct (Z.leb_spec 0 (i - Z.of_nat n)), (Z.ltb_spec (i - Z.of_nat n) (Z.of_nat (16 - n))); try lia.
      cbn [andb]. rewrite H by lia. reflexivity.
Qed.

Lemma text_roundtrip_core n4 n6 p4 p6 a t force ty mx ad :
  parse_addr p4 p6 t = Some (ty, mx, ad) -> is_u8 mx ->
  forallb okaddr t = true -> (exists c, In c t /\ (c = 45 \/ c = 46 \/ c = 58)) -> (2 <= length t <= 57)%nat ->
  na_wf a -> na_type a = ty -> na_addr a = ad -> na_plen a <= mx ->
  to_prefixstring n4 n6 a force = Some (if force || (na_plen a <? maxprefix a) then t ++ 47 :: dec_str (na_plen a) else t) ->
  (force || (na_plen a <? maxprefix a) = false -> na_plen a = mx) ->
  exists s, to_prefixstring n4 n6 a force = Some s /\ from_string p4 p6 s = Some a.
Proof.
  intros HP Um Ho Hs Hl W T A P HT HF. rewrite HT. eexists; split; [reflexivity|].
  destruct (force || _).
  - rewrite from_string_prefix, HP by (auto; apply W). destruct (Z.gtb_spec (na_plen a) mx); [lia|].
    destruct a; cbn in *; congruence.
  - rewrite from_string_plain, HP by auto. specialize (HF eq_refl). destruct a; cbn in *; congruence.
Qed.


Lemma cnt_In c l : 0 < cnt c l -> In c l.
Proof. induction l as [|x l IH]; cbn [cnt]; [lia|]. destruct (Z.eqb_spec x c); [left; auto|right; apply IH; lia]. Qed.

Lemma parse_mac p4 p6 b : all_bytes b -> zlen b = 6 ->
  parse_addr p4 p6 (mac_text b 58) = Some (AF_MAC48, 48, pad16 b).
Proof.
  intros Hb Lb. assert (Nb : b <> []) by (intros E; rewrite E in Lb; discriminate).
  pose proof (mac_text_cnt b 58 58 Hb Nb ltac:(auto)) as C1. pose proof (mac_text_cnt b 58 45 Hb Nb ltac:(auto)) as C2.
  assert (C3 : cnt 46 (mac_text b 58) = 0).
  { apply cnt_zero. eapply Forall_impl; [|exact (mac_text_chars b 58 Hb)]. unfold hexlow. intros; lia. }
  rewrite Lb in *.
  pose proof (scan_counts (mac_text b 58) scan0) as (S1 & S2 & S3). rewrite C1 in S1. rewrite C2 in S2. rewrite C3 in S3.
  pose proof (scan_coloncolon_false (mac_text b 58) scan0 eq_refl eq_refl (mac_text_no_coloncolon b 58 Hb)) as S4.
  unfold parse_addr, scan_all. rewrite S1, S2, S3, S4.
  assert (BF : bin_from_hex 6 (mac_text b 58) 58 = Some (0, b)).
  { rewrite <- (bin_from_hex_text b 58) by auto. f_equal. unfold zlen in Lb; lia. }
  generalize dependent (mac_text b 58). intros t **. lazy -[bin_from_hex pad16 AF_MAC48]. rewrite BF. reflexivity.
Qed.

Lemma parse_eui64 p4 p6 b : all_bytes b -> zlen b = 8 ->
  parse_addr p4 p6 (mac_text b 45) = Some (AF_EUI64, 64, pad16 b).
Proof.
  intros Hb Lb. assert (Nb : b <> []) by (intros E; rewrite E in Lb; discriminate).
  pose proof (mac_text_cnt b 45 58 Hb Nb ltac:(auto)) as C1. pose proof (mac_text_cnt b 45 45 Hb Nb ltac:(auto)) as C2.
  assert (C3 : cnt 46 (mac_text b 45) = 0).
  { apply cnt_zero. eapply Forall_impl; [|exact (mac_text_chars b 45 Hb)]. unfold hexlow. intros; lia. }
  rewrite Lb in *.
  pose proof (scan_counts (mac_text b 45) scan0) as (S1 & S2 & S3). rewrite C1 in S1. rewrite C2 in S2. rewrite C3 in S3.
  pose proof (scan_coloncolon_false (mac_text b 45) scan0 eq_refl eq_refl (mac_text_no_coloncolon b 45 Hb)) as S4.
  unfold parse_addr, scan_all. rewrite S1, S2, S3, S4.
  assert (BF : bin_from_hex 8 (mac_text b 45) 45 = Some (0, b)).
  { rewrite <- (bin_from_hex_text b 45) by auto. f_equal. unfold zlen in Lb; lia. }
  generalize dependent (mac_text b 45). intros t **. lazy -[bin_from_hex pad16 AF_EUI64]. rewrite BF. reflexivity.
Qed.

Lemma mac_string_roundtrip n4 n6 p4 p6 a force : na_wf a -> canonical a -> na_type a = AF_MAC48 -> na_plen a <= 48 ->
  exists s, to_prefixstring n4 n6 a force = Some s /\ from_string p4 p6 s = Some a.
Proof.
  intros W (n & Fn & Hc) T P. pose proof W as (L & Hb & _). rewrite T in Fn. injection Fn as <-.
  assert (Lb : zlen (firstn 6 (na_addr a)) = 6) by (rewrite zlen_firstn; unfold zlen; lia).
  pose proof (pad16_eq (na_addr a) 6 L ltac:(lia) Hc) as PE.
  assert (TS : to_prefixstring n4 n6 a force = let t := mac_text (firstn 6 (na_addr a)) 58 in
     Some (if force || (na_plen a <? maxprefix a) then t ++ 47 :: dec_str (na_plen a) else t)).
  { unfold to_prefixstring. rewrite T. rewrite mac_to_string_text by (cbn [Z.eqb]; rewrite Lb; unfold NETADDR_STR_LEN; lia). reflexivity. }
  assert (Hbb : all_bytes (firstn 6 (na_addr a))) by (apply Forall_firstn; auto).
  generalize dependent (firstn 6 (na_addr a)). intros b Lb PE TS Hbb.
  assert (Nb : b <> []) by (intros E; rewrite E in Lb; discriminate).
  pose proof (mac_text_chars b 58 Hbb) as CH. pose proof (mac_text_len b 58 Nb) as LT. rewrite Lb in *. cbn [Z.eqb] in LT.
  assert (MX : maxprefix a = 48) by (unfold maxprefix; rewrite T; reflexivity).
  apply text_roundtrip_core with (t := mac_text b 58) (ty := AF_MAC48) (mx := 48) (ad := na_addr a); auto.
  - rewrite parse_mac by auto. now rewrite PE.
  - unfold is_u8; lia.
  - apply okaddr_chars. eapply Forall_impl; [|exact CH]. unfold hexlow, hexcolon. intros; lia.
  - exists 58. split; [|lia]. apply cnt_In. rewrite mac_text_cnt, Lb by auto. reflexivity.
  - unfold zlen in LT. lia.
  - rewrite MX. destruct force; cbn [orb]; [discriminate|]. intros. lia.
Qed.

Lemma eui64_string_roundtrip n4 n6 p4 p6 a force : na_wf a -> canonical a -> na_type a = AF_EUI64 -> na_plen a <= 64 ->
  exists s, to_prefixstring n4 n6 a force = Some s /\ from_string p4 p6 s = Some a.
Proof.
  intros W (n & Fn & Hc) T P. pose proof W as (L & Hb & _). rewrite T in Fn. injection Fn as <-.
  assert (Lb : zlen (firstn 8 (na_addr a)) = 8) by (rewrite zlen_firstn; unfold zlen; lia).
  pose proof (pad16_eq (na_addr a) 8 L ltac:(lia) Hc) as PE.
  assert (TS : to_prefixstring n4 n6 a force = let t := mac_text (firstn 8 (na_addr a)) 45 in
     Some (if force || (na_plen a <? maxprefix a) then t ++ 47 :: dec_str (na_plen a) else t)).
  { unfold to_prefixstring. rewrite T. rewrite (mac_to_string_text (firstn 8 (na_addr a)) 45) by (cbn [Z.eqb]; rewrite Lb; unfold NETADDR_STR_LEN; lia). reflexivity. }
  assert (Hbb : all_bytes (firstn 8 (na_addr a))) by (apply Forall_firstn; auto).
  generalize dependent (firstn 8 (na_addr a)). intros b Lb PE TS Hbb.
  assert (Nb : b <> []) by (intros E; rewrite E in Lb; discriminate).
  pose proof (mac_text_chars b 45 Hbb) as CH. pose proof (mac_text_len b 45 Nb) as LT. rewrite Lb in *. cbn [Z.eqb] in LT.
  assert (MX : maxprefix a = 64) by (unfold maxprefix; rewrite T; reflexivity).
  apply text_roundtrip_core with (t := mac_text b 45) (ty := AF_EUI64) (mx := 64) (ad := na_addr a); auto.
  - rewrite parse_eui64 by auto. now rewrite PE.
  - unfold is_u8; lia.
  - apply okaddr_chars. eapply Forall_impl; [|exact CH]. unfold hexlow, hexcolon. intros; lia.
  - exists 45. split; [|lia]. apply cnt_In. rewrite mac_text_cnt, Lb by auto. reflexivity.
  - unfold zlen in LT. lia.
  - rewrite MX. destruct force; cbn [orb]; [discriminate|]. intros. lia.
Qed.

(** ** UUID *)
Lemma uuid_group b rest g gs : all_bytes b -> b <> [] -> zlen b = g / 2 -> g mod 2 = 0 -> gs <> [] -> 
  uuid_from_string_loop (g :: gs) (mac_text b 0 ++ 45 :: rest) =
  match uuid_from_string_loop gs rest with None => None | Some bs' => Some (b ++ bs') end.
Proof.
  intros Hb Nb Lb Hg Ng. cbn [uuid_from_string_loop].
  assert (A : forallb (fun c => negb (c =? 45)) (mac_text b 0) = true).
  { apply forallb_forall. intros c Hc. pose proof (mac_text_chars b 0 Hb) as CH. rewrite Forall_forall in CH.
    specialize (CH c Hc). unfold hexlow in CH. lia. }
  rewrite take_while_app_all, drop_while_app_all by auto. cbn [take_while drop_while]. cbn [Z.eqb Pos.eqb negb].
  rewrite app_nil_r. destruct gs as [|g2 gs]; [congruence|].
  rewrite mac_text_len by auto. cbn [Z.eqb]. destruct (Z.eqb_spec (2 * zlen b + 0) g) as [_|E]; [|exfalso; apply E; zdm; lia].
  cbn [negb]. rewrite <- Lb. unfold zlen. rewrite Nat2Z.id, bin_from_hex_text by auto. reflexivity.
Qed.
Lemma uuid_last b g : all_bytes b -> b <> [] -> zlen b = g / 2 -> g mod 2 = 0 ->
  uuid_from_string_loop [g] (mac_text b 0) = Some b.
Proof.
  intros Hb Nb Lb Hg. cbn [uuid_from_string_loop].
  assert (A : forallb (fun c => negb (c =? 45)) (mac_text b 0) = true).
  { apply forallb_forall. intros c Hc. pose proof (mac_text_chars b 0 Hb) as CH. rewrite Forall_forall in CH.
    specialize (CH c Hc). unfold hexlow in CH. lia. }
  pose proof (take_while_app_all _ _ [] A) as T. pose proof (drop_while_app_all _ _ [] A) as D.
  rewrite app_nil_r in T, D. cbn [take_while drop_while] in T, D. rewrite app_nil_r in T. rewrite T, D.
  rewrite mac_text_len by auto. cbn [Z.eqb]. destruct (Z.eqb_spec (2 * zlen b + 0) g) as [_|E]; [|exfalso; apply E; zdm; lia].
  cbn [negb]. rewrite <- Lb. unfold zlen. rewrite Nat2Z.id, bin_from_hex_text by auto. reflexivity.
Qed.

Lemma uuid_roundtrip_text ad : length ad = 16%nat -> all_bytes ad ->
  exists t, uuid_to_string NETADDR_STR_LEN ad = Some t /\ zlen t = 36 /\
    Forall (fun c => hexlow c \/ c = 45) t /\ cnt 45 t = 4 /\ uuid_from_string t = Some ad.
Proof.
  intros L Hb.
  do 16 (destruct ad as [|? ad]; [discriminate|]). destruct ad; [|discriminate].
  unfold all_bytes in *. repeat match goal with H : Forall _ (_ :: _) |- _ => inversion_clear H end.
  unfold uuid_to_string. match goal with |- context [zlen (z :: ?l)] => change (zlen (z :: l)) with 16 end. cbn [Z.eqb negb Pos.eqb].
  change (NETADDR_STR_LEN <? 37) with false. cbn iota.
  eexists; split; [reflexivity|].
  unfold uuid_groups. cbn [uuid_to_string_loop].
  change (Z.to_nat (8/2)) with 4%nat. change (Z.to_nat (4/2)) with 2%nat. change (Z.to_nat (12/2)) with 6%nat.
  cbn [firstn skipn].
  rewrite !mac_to_string_text by (vm_compute; discriminate).
  set (b1 := [z; z0; z1; z2]). set (b2 := [z3; z4]). set (b3 := [z5; z6]). set (b4 := [z7; z8]).
  set (b5 := [z9; z10; z11; z12; z13; z14]).
  assert (U1 : all_bytes b1) by (repeat (apply Forall_cons; [assumption|]); apply Forall_nil). assert (U2 : all_bytes b2) by (repeat (apply Forall_cons; [assumption|]); apply Forall_nil).
  assert (U3 : all_bytes b3) by (repeat (apply Forall_cons; [assumption|]); apply Forall_nil). assert (U4 : all_bytes b4) by (repeat (apply Forall_cons; [assumption|]); apply Forall_nil).
  assert (U5 : all_bytes b5) by (repeat (apply Forall_cons; [assumption|]); apply Forall_nil).
  assert (N1 : b1 <> []) by discriminate. assert (N2 : b2 <> []) by discriminate. assert (N3 : b3 <> []) by discriminate.
  assert (N4 : b4 <> []) by discriminate. assert (N5 : b5 <> []) by discriminate.
  change (z :: z0 :: z1 :: z2 :: z3 :: z4 :: z5 :: z6 :: z7 :: z8 :: b5) with (b1 ++ b2 ++ b3 ++ b4 ++ b5).
  assert (L1 : zlen b1 = 4) by reflexivity. assert (L2 : zlen b2 = 2) by reflexivity. assert (L3 : zlen b3 = 2) by reflexivity.
  assert (L4 : zlen b4 = 2) by reflexivity. assert (L5 : zlen b5 = 6) by reflexivity.
  clearbody b1 b2 b3 b4 b5.
  assert (LEN : zlen (mac_text b1 0 ++ 45 :: mac_text b2 0 ++ 45 :: mac_text b3 0 ++ 45 :: mac_text b4 0 ++ 45 :: mac_text b5 0) = 36).
  { repeat rewrite ?zlen_app, ?zlen_cons. rewrite !mac_text_len by auto. cbn [Z.eqb]. lia. }
  split; [exact LEN|]. split; [|split].
  - assert (K : forall b, all_bytes b -> Forall (fun c => hexlow c \/ c = 45) (mac_text b 0)).
    { intros b Ub. eapply Forall_impl; [|apply mac_text_chars; auto]. intros c [|]; [auto|lia]. }
    repeat (apply Forall_app; split; [apply K; assumption|]; apply Forall_cons; [right; reflexivity|]). apply K; assumption.
  - repeat (rewrite cnt_app; cbn [cnt]; change (45 =? 45) with true; cbn iota).
    rewrite !mac_text_cnt by auto. reflexivity.
  - unfold uuid_from_string. rewrite LEN. change (36 >? 36) with false. cbn iota. unfold uuid_groups.
    repeat rewrite uuid_group by (auto; discriminate). rewrite uuid_last by auto. reflexivity.
Qed.

Lemma uuid_string_roundtrip n4 n6 p4 p6 a force : na_wf a -> na_type a = AF_UUID -> na_plen a <= 128 ->
  force = true \/ na_plen a = 128 ->
  exists s, to_prefixstring n4 n6 a force = Some s /\ from_string p4 p6 s = Some a.
Proof.
  intros W T P F. pose proof W as (L & Hb & Up).
  destruct (uuid_roundtrip_text (na_addr a) L Hb) as (t & T1 & LT & CH & CN & UR).
  assert (MX : maxprefix a = 0) by (unfold maxprefix; rewrite T; reflexivity).
  assert (C58 : cnt 58 t = 0) by (apply cnt_zero; eapply Forall_impl; [|exact CH]; unfold hexlow; intros; lia).
  assert (C46 : cnt 46 t = 0) by (apply cnt_zero; eapply Forall_impl; [|exact CH]; unfold hexlow; intros; lia).
  apply text_roundtrip_core with (t := t) (ty := AF_UUID) (mx := 128) (ad := na_addr a); auto.
  - pose proof (scan_counts t scan0) as (S1 & S2 & S3). rewrite C58 in S1. rewrite CN in S2. rewrite C46 in S3.
    assert (S4 : sc_coloncolon (fold_left scan_step t scan0) = false).
    { apply scan_coloncolon_false; auto. intros l r E. rewrite E in C58. rewrite cnt_app in C58. cbn [cnt] in C58.
      pose proof (cnt_nonneg 58 l). pose proof (cnt_nonneg 58 r). change (58 =? 58) with true in C58. lia. }
    unfold parse_addr, scan_all. rewrite S1, S2, S3, S4. lazy -[uuid_from_string bin_from_hex pad16 AF_UUID]. rewrite UR.
    f_equal. f_equal. unfold pad16. rewrite L. cbn [repeat Nat.sub]. now rewrite app_nil_r.
  - unfold is_u8; lia.
  - apply okaddr_chars. eapply Forall_impl; [|exact CH]. unfold hexlow, hexcolon. intros; lia.
  - exists 45. split; [|lia]. apply cnt_In. lia.
  - unfold zlen in LT. lia.
  - unfold to_prefixstring. rewrite T. cbn -[uuid_to_string dec_str maxprefix]. rewrite T1. reflexivity.
  - rewrite MX. destruct F as [-> | ->]; cbn [orb]; [discriminate|auto].
Qed.

(** ** IPv4 and IPv6 through the C library *)
Lemma ipv4_string_roundtrip n4 n6 p4 p6 a force : inet4_ok n4 p4 -> na_wf a -> canonical a -> na_type a = AF_INET -> na_plen a <= 32 ->
  exists s, to_prefixstring n4 n6 a force = Some s /\ from_string p4 p6 s = Some a.
Proof.
  intros I4 W (n & Fn & Hc) T P. pose proof W as (L & Hb & _). rewrite T in Fn. injection Fn as <-.
  pose proof (pad16_eq (na_addr a) 4 L ltac:(lia) Hc) as PE.
  assert (Lb : length (firstn 4 (na_addr a)) = 4%nat) by (rewrite firstn_length; lia).
  destruct (I4 (firstn 4 (na_addr a)) Lb ltac:(apply Forall_firstn; auto)) as (PT & LT & (l & r & Nl & E) & CH).
  assert (TS : to_prefixstring n4 n6 a force = let t := n4 (firstn 4 (na_addr a)) in
     Some (if force || (na_plen a <? maxprefix a) then t ++ 47 :: dec_str (na_plen a) else t)).
  { unfold to_prefixstring. rewrite T. reflexivity. }
  generalize dependent (firstn 4 (na_addr a)). intros b PE Lb PT LT E CH TS. generalize dependent (n4 b). intros t **.
  assert (MX : maxprefix a = 32) by (unfold maxprefix; rewrite T; reflexivity).
  assert (C58 : cnt 58 t = 0) by (apply cnt_zero; eapply Forall_impl; [|exact CH]; cbv beta; intros; lia).
  assert (C45 : cnt 45 t = 0) by (apply cnt_zero; eapply Forall_impl; [|exact CH]; cbv beta; intros; lia).
  assert (C46 : 0 < cnt 46 t).
  { rewrite E, cnt_app. cbn [cnt]. change (46 =? 46) with true. pose proof (cnt_nonneg 46 l). pose proof (cnt_nonneg 46 r). lia. }
  apply text_roundtrip_core with (t := t) (ty := AF_INET) (mx := 32) (ad := na_addr a); auto.
  - pose proof (scan_counts t scan0) as (S1 & S2 & S3). rewrite C58 in S1. rewrite C45 in S2.
    apply Z.ltb_lt in C46. rewrite C46 in S3.
    unfold parse_addr, scan_all. rewrite S1, S2, S3. lazy -[uuid_from_string bin_from_hex pad16 AF_INET scan_step fold_left].
    rewrite PT. now rewrite PE.
  - unfold is_u8; lia.
  - apply okaddr_chars. eapply Forall_impl; [|exact CH]. unfold hexlow, hexcolon. intros; lia.
  - exists 46. split; [|lia]. apply cnt_In. lia.
  - split; [|lia]. rewrite E, app_length. destruct l; [congruence|]. cbn. lia.
  - rewrite MX. destruct force; cbn [orb]; [discriminate|]. intros. lia.
Qed.

Lemma count_occ_cnt l c : Z.of_nat (count_occ Z.eq_dec l c) = cnt c l.
Proof. induction l as [|x l IH]; cbn [count_occ cnt]; auto. destruct (Z.eq_dec x c), (Z.eqb_spec x c); try contradiction; lia. Qed.

Lemma ipv6_string_roundtrip n4 n6 p4 p6 a force : inet6_ok n6 p6 -> na_wf a -> na_type a = AF_INET6 -> na_plen a <= 128 ->
  exists s, to_prefixstring n4 n6 a force = Some s /\ from_string p4 p6 s = Some a.
Proof.
  intros I6 W T P. pose proof W as (L & Hb & _).
  destruct (I6 (na_addr a) L Hb) as (PT & LT & CH & CC).
  assert (TS : to_prefixstring n4 n6 a force = let t := n6 (na_addr a) in
     Some (if force || (na_plen a <? maxprefix a) then t ++ 47 :: dec_str (na_plen a) else t)).
  { unfold to_prefixstring. rewrite T. reflexivity. }
  generalize dependent (n6 (na_addr a)). intros t PT LT CH CC TS.
  assert (MX : maxprefix a = 128) by (unfold maxprefix; rewrite T; reflexivity).
  assert (C45 : cnt 45 t = 0) by (apply cnt_zero; eapply Forall_impl; [|exact CH]; unfold hexcolon; intros; lia).
  assert (CC2 : 2 <= cnt 58 t).
  { destruct CC as [(l & r & ->)|CC].
    - rewrite cnt_app. cbn [cnt]. change (58 =? 58) with true. pose proof (cnt_nonneg 58 l). pose proof (cnt_nonneg 58 r). lia.
    - rewrite <- count_occ_cnt, CC. lia. }
  assert (CCL : forall c l, cnt c l <= zlen l).
  { intros c l0; induction l0; cbn [cnt]; [unfold zlen; cbn; lia|]. rewrite zlen_cons. destruct (_ =? _); lia. }
  apply text_roundtrip_core with (t := t) (ty := AF_INET6) (mx := 128) (ad := na_addr a); auto.
  - pose proof (scan_counts t scan0) as (S1 & S2 & S3). rewrite C45 in S2.
    unfold parse_addr, scan_all. rewrite S1, S2, S3. cbn [sc_colon sc_minus sc_point scan0 orb].
    destruct (Z.eqb_spec (0 + cnt 58 t) 0); [lia|]. cbn [andb]. rewrite ?andb_false_r. cbn [orb andb].
    change (0 + 0 =? 5) with false. change (0 + 0 =? 0) with true. rewrite orb_false_r, ?andb_true_r.
    assert (B1 : (0 + cnt 58 t =? 5) && negb (0 <? cnt 46 t) && negb (sc_coloncolon (fold_left scan_step t scan0)) = false).
    { destruct CC as [(l & r & ->)|CC].
      - pose proof (scan_coloncolon_true l r) as H. unfold scan_all in H. rewrite H. now rewrite andb_false_r.
      - rewrite <- count_occ_cnt, CC. reflexivity. }
    assert (B2 : sc_coloncolon (fold_left scan_step t scan0) || (0 + cnt 58 t =? 7) = true).
    { destruct CC as [(l & r & ->)|CC].
      - pose proof (scan_coloncolon_true l r) as H. unfold scan_all in H. rewrite H. reflexivity.
      - rewrite <- count_occ_cnt, CC. now rewrite orb_true_r. }
    rewrite B1, B2, PT. unfold pad16. rewrite L. cbn [repeat Nat.sub]. now rewrite app_nil_r.
  - unfold is_u8; lia.
  - apply okaddr_chars. eapply Forall_impl; [|exact CH]. auto.
  - exists 58. split; [|lia]. apply cnt_In. lia.
  - specialize (CCL 58 t). unfold zlen in CCL. lia.
  - rewrite MX. destruct force; cbn [orb]; [discriminate|]. intros. lia.
Qed.

(** ** The hypothesis on inet_ntop/inet_pton can be met: dotted quads *)
Definition ntop4_ref (b : bytes) : bytes :=
  match b with
  | [x; y; z; w] => dec_str x ++ 46 :: dec_str y ++ 46 :: dec_str z ++ 46 :: dec_str w
  | _ => []
  end.
Definition not_dot (c : Z) : bool := negb (c =? 46).
Definition pton4_ref (s : bytes) : option bytes :=
  let field s := let d := take_while not_dot s in
                 if match d with [] => false | _ => forallb isdigit d && (digits_val d 0 <=? 255) end
                 then Some (digits_val d 0) else None in
  let rest s := match drop_while not_dot s with [] => None | _ :: r => Some r end in
  match field s, rest s with
  | Some a, Some s1 =>
    match field s1, rest s1 with
    | Some b, Some s2 =>
      match field s2, rest s2 with
      | Some c, Some s3 =>
        match field s3, rest s3 with
        | Some d, None => Some [a; b; c; d]
        | _, _ => None
        end
      | _, _ => None
      end
    | _, _ => None
    end
  | _, _ => None
  end.

Lemma dec_str_value p : is_u8 p -> digits_val (dec_str p) 0 = p /\ forallb not_dot (dec_str p) = true.
Proof.
  intros Hp. assert (C : forallb (fun p => (digits_val (dec_str p) 0 =? p) && forallb not_dot (dec_str p)) (zrange 0 256) = true) by (vm_compute; reflexivity).
  apply zsweep with (x := p) in C; [|unfold is_u8 in *; lia]. rewrite andb_true_iff, Z.eqb_eq in C. exact C.
Qed.

Lemma inet4_ref_ok : inet4_ok ntop4_ref pton4_ref.
Proof.
  intros b L Hb. destruct b as [|x [|y [|z [|w [|]]]]]; try discriminate.
  unfold all_bytes in Hb. repeat match goal with H : Forall _ (_ :: _) |- _ => inversion_clear H end.
  assert (F : forall p r, is_u8 p -> take_while not_dot (dec_str p ++ 46 :: r) = dec_str p /\ drop_while not_dot (dec_str p ++ 46 :: r) = 46 :: r).
  { intros p r Up. destruct (dec_str_value p Up). rewrite take_while_app_all, drop_while_app_all by auto.
    cbn [take_while drop_while]. change (not_dot 46) with false. now rewrite app_nil_r. }
  assert (G : forall p, is_u8 p -> take_while not_dot (dec_str p) = dec_str p /\ drop_while not_dot (dec_str p) = []).
  { intros p Up. destruct (dec_str_value p Up) as [_ A]. pose proof (take_while_app_all _ _ [] A) as T. pose proof (drop_while_app_all _ _ [] A) as D.
    rewrite app_nil_r in T, D. cbn [take_while drop_while] in T, D. rewrite app_nil_r in T. auto. }
  assert (V : forall p, is_u8 p -> match dec_str p with [] => false | _ => forallb isdigit (dec_str p) && (digits_val (dec_str p) 0 <=? 255) end = true).
  { intros p Up. destruct (dec_str_facts p Up) as (_ & _ & N & _ & D). destruct (dec_str_value p Up) as [E _].
    rewrite E, D. destruct (dec_str p); [congruence|]. unfold is_u8 in Up. cbn [andb]. lia. }
  repeat split.
  - unfold ntop4_ref, pton4_ref.
    repeat match goal with |- context [take_while not_dot (dec_str ?p ++ 46 :: ?r)] =>
      destruct (F p r ltac:(assumption)) as [-> ->]; rewrite (V p) by assumption; rewrite (proj1 (dec_str_value p ltac:(assumption))) end.
    destruct (G w ltac:(assumption)) as [-> ->]. rewrite (V w) by assumption. rewrite (proj1 (dec_str_value w ltac:(assumption))). reflexivity.
  - unfold ntop4_ref. repeat (rewrite app_length; cbn [length]).
    pose proof (dec_str_facts x ltac:(assumption)) as (_ & _ & _ & ? & _). pose proof (dec_str_facts y ltac:(assumption)) as (_ & _ & _ & ? & _).
    pose proof (dec_str_facts z ltac:(assumption)) as (_ & _ & _ & ? & _). pose proof (dec_str_facts w ltac:(assumption)) as (_ & _ & _ & ? & _). lia.
  - unfold ntop4_ref. eexists _, _. split; [|reflexivity]. apply dec_str_facts; assumption.
  - assert (K : forall p, is_u8 p -> Forall (fun c => 48 <= c <= 57 \/ c = 46) (dec_str p)).
    { intros p Up. destruct (dec_str_facts p Up) as (_ & _ & _ & _ & D). rewrite Forall_forall. rewrite forallb_forall in D.
      intros c Hc. specialize (D c Hc). unfold isdigit in D. lia. }
    unfold ntop4_ref. repeat (apply Forall_app; split; [apply K; assumption|]; apply Forall_cons; [right; reflexivity|]). apply K; assumption.
Qed.

(** * ACL *)
Lemma strcase_other w k k2 : strcase_eqb w k = true -> strcase_eqb w k2 = strcase_eqb k k2.
Proof. unfold strcase_eqb. intros H. apply str_eqb_eq in H. now rewrite H. Qed.

Definition fstep (w : bytes) (d : bool) := if strcase_eqb w (zs "first_reject") then true else if strcase_eqb w (zs "first_accept") then false else d.
Definition dstep (w : bytes) (d : bool) := if strcase_eqb w (zs "default_accept") then true else if strcase_eqb w (zs "default_reject") then false else d.

Lemma acl_keyword_spec a w : acl_keyword a w =
  if is_kw w then Some {| acl_accept := acl_accept a; acl_reject := acl_reject a;
      acl_reject_first := fstep w (acl_reject_first a); acl_accept_default := dstep w (acl_accept_default a) |} else None.
Proof.
  unfold acl_keyword, is_kw, acl_kws, fstep, dstep. cbn [existsb].
  destruct (strcase_eqb w (zs "default_accept")) eqn:E1; [rewrite !(strcase_other _ _ _ E1); reflexivity|].
  destruct (strcase_eqb w (zs "default_reject")) eqn:E2; [rewrite !(strcase_other _ _ _ E2); reflexivity|].
  destruct (strcase_eqb w (zs "first_accept")) eqn:E3; [rewrite !(strcase_other _ _ _ E3); reflexivity|].
  destruct (strcase_eqb w (zs "first_reject")) eqn:E4; reflexivity.
Qed.
Lemma not_kw_step w d : is_kw w = false -> fstep w d = d /\ dstep w d = d.
Proof.
  unfold is_kw, acl_kws, fstep, dstep. cbn [existsb]. rewrite !orb_false_iff. intros (-> & -> & -> & -> & _). auto.
Qed.

Definition FLAG1 := last_flag (zs "first_reject") (zs "first_accept").
Definition FLAG2 := last_flag (zs "default_accept") (zs "default_reject").
Lemma flag1_cons w l d : FLAG1 (w :: l) d = FLAG1 l (fstep w d). Proof. reflexivity. Qed.
Lemma flag2_cons w l d : FLAG2 (w :: l) d = FLAG2 l (dstep w d). Proof. reflexivity. Qed.
Lemma last_flag_cases yes no l : (forall d, last_flag yes no l d = d) \/ (forall d d', last_flag yes no l d = last_flag yes no l d').
Proof.
  induction l as [|w l IH]; [left; reflexivity|]. unfold last_flag in *. cbn [fold_left].
  destruct (strcase_eqb w yes); [right; reflexivity|]. destruct (strcase_eqb w no); [right; reflexivity|]. destruct IH; auto.
Qed.
Lemma last_flag_twice yes no l d : last_flag yes no l (last_flag yes no l d) = last_flag yes no l d.
Proof. destruct (last_flag_cases yes no l) as [H|H]; [now rewrite !H|apply H]. Qed.

Lemma acl_pass1_spec l : forall a n m, acl_pass1 a l n m =
  ({| acl_accept := acl_accept a; acl_reject := acl_reject a; acl_reject_first := FLAG1 l (acl_reject_first a);
      acl_accept_default := FLAG2 l (acl_accept_default a) |}, (n + length (acc_words l))%nat, (m + length (rej_words l))%nat).
Proof.
  induction l as [|w l IH]; intros a n m; cbn [acl_pass1].
  - unfold FLAG1, FLAG2, last_flag; cbn. rewrite !Nat.add_0_r. destruct a; reflexivity.
  - rewrite acl_keyword_spec. unfold acc_words, rej_words. cbn [filter]. rewrite flag1_cons, flag2_cons.
    destruct (is_kw w) eqn:K; cbn [negb andb].
    + rewrite IH. reflexivity.
    + destruct (not_kw_step w (acl_reject_first a) K) as [-> _], (not_kw_step w (acl_accept_default a) K) as [_ ->].
      assert (N : match w with 45 :: _ => acl_pass1 a l n (S m) | _ => acl_pass1 a l (S n) m end =
              if is_neg w then acl_pass1 a l n (S m) else acl_pass1 a l (S n) m).
      { unfold is_neg. destruct w as [|c w]; auto. all: repeat (destruct c as [|c|c]; auto). }
      rewrite N. destruct (is_neg w); cbn [negb map length]; rewrite IH; unfold acc_words, rej_words; rewrite <- ?plus_n_Sm; reflexivity.
Qed.

Lemma acl_pass2_ok parse l : forall a A R nacc nrej,
  map parse (acc_words l) = map Some A -> map parse (rej_words l) = map Some R ->
  (length (acl_accept a) + length A <= nacc)%nat -> (length (acl_reject a) + length R <= nrej)%nat ->
  acl_pass2 parse a l nacc nrej = AclOk
  {| acl_accept := acl_accept a ++ A; acl_reject := acl_reject a ++ R; acl_reject_first := FLAG1 l (acl_reject_first a);
      acl_accept_default := FLAG2 l (acl_accept_default a) |}.
Proof.
  induction l as [|w l IH]; intros a A R nacc nrej HA HR LA LR; cbn [acl_pass2].
  - destruct A, R; try discriminate. rewrite !app_nil_r. destruct a; reflexivity.
  - rewrite acl_keyword_spec, flag1_cons, flag2_cons. unfold acc_words, rej_words in HA, HR. cbn [filter] in HA, HR.
    destruct (is_kw w) eqn:K; cbn [negb andb] in HA, HR; [rewrite (IH _ A R) by auto; reflexivity|].
    destruct (not_kw_step w (acl_reject_first a) K) as [-> _], (not_kw_step w (acl_accept_default a) K) as [_ ->].
    assert (N1 : match w with c :: r => if (c =? 45) || (c =? 43) then r else w | [] => w end = strip_sign w).
    { unfold strip_sign. destruct w as [|c w]; auto. destruct (Z.eqb_spec c 45) as [->|]; auto. destruct (Z.eqb_spec c 43) as [->|]; auto.
      cbn. all: repeat (destruct c as [|c|c]; auto; try contradiction). }
    assert (N2 : match w with c :: _ => c =? 45 | [] => false end = is_neg w).
    { unfold is_neg. destruct w as [|c w]; auto. all: repeat (destruct c as [|c|c]; auto). }
    rewrite N1, N2. destruct (is_neg w); cbn [negb map] in HA, HR.
    + destruct R as [|x R]; [discriminate|]. injection HR as Hx HR. cbn [length] in LR.
      destruct (Nat.ltb_spec (length (acl_reject a)) nrej); [|lia]. rewrite Hx.
      rewrite (IH _ A R); auto; cbn [acl_accept acl_reject acl_reject_first acl_accept_default].
      * rewrite <- app_assoc. reflexivity.
      * rewrite app_length. cbn. lia.
    + destruct A as [|x A]; [discriminate|]. injection HA as Hx HA. cbn [length] in LA.
      destruct (Nat.ltb_spec (length (acl_accept a)) nacc); [|lia]. rewrite Hx.
      rewrite (IH _ A R); auto; cbn [acl_accept acl_reject acl_reject_first acl_accept_default].
      * rewrite <- app_assoc. reflexivity.
      * rewrite app_length. cbn. lia.
Qed.

Lemma acl_pass2_err parse l : forall a nacc nrej,
  (exists x, In x (acc_words l ++ rej_words l) /\ parse x = None) ->
  (length (acl_accept a) + length (acc_words l) <= nacc)%nat -> (length (acl_reject a) + length (rej_words l) <= nrej)%nat ->
  acl_pass2 parse a l nacc nrej = AclErr.
Proof.
  induction l as [|w l IH]; intros a nacc nrej (x & Hx & Px) LA LR; cbn [acl_pass2]; [destruct Hx|].
  rewrite acl_keyword_spec. unfold acc_words, rej_words in *. cbn [filter] in *.
  destruct (is_kw w) eqn:K; cbn [negb andb] in *; [apply IH; eauto|].
  assert (N1 : match w with c :: r => if (c =? 45) || (c =? 43) then r else w | [] => w end = strip_sign w).
  { unfold strip_sign. destruct w as [|c w]; auto. destruct (Z.eqb_spec c 45) as [->|]; auto. destruct (Z.eqb_spec c 43) as [->|]; auto.
    cbn. all: repeat (destruct c as [|c|c]; auto; try contradiction). }
  assert (N2 : match w with c :: _ => c =? 45 | [] => false end = is_neg w).
  { unfold is_neg. destruct w as [|c w]; auto. all: repeat (destruct c as [|c|c]; auto). }
  rewrite N1, N2. destruct (is_neg w); cbn [negb map length] in *.
  - destruct (Nat.ltb_spec (length (acl_reject a)) nrej); [|lia]. destruct (parse (strip_sign w)) eqn:Pw; auto.
    apply IH; cbn [acl_accept acl_reject]; [|lia|rewrite app_length; cbn [length]; lia].
    exists x; split; auto. apply in_app_or in Hx. apply in_or_app. destruct Hx as [|[|]]; auto. congruence.
  - destruct (Nat.ltb_spec (length (acl_accept a)) nacc); [|lia]. destruct (parse (strip_sign w)) eqn:Pw; auto.
    apply IH; cbn [acl_accept acl_reject]; [|rewrite app_length; cbn [length]; lia|lia].
    exists x; split; auto. destruct Hx as [|]; [congruence|auto].
Qed.

Lemma acl_parse_ok parse l A R :
  map parse (acc_words l) = map Some A -> map parse (rej_words l) = map Some R ->
  acl_from_strarray parse l = AclOk {| acl_accept := A; acl_reject := R;
    acl_reject_first := last_flag (zs "first_reject") (zs "first_accept") l false;
    acl_accept_default := last_flag (zs "default_accept") (zs "default_reject") l false |}.
Proof.
  intros HA HR. unfold acl_from_strarray. rewrite acl_pass1_spec. rewrite (acl_pass2_ok parse l _ A R); auto.
  - cbn [acl_accept acl_reject acl_reject_first acl_accept_default acl_empty app]. unfold FLAG1, FLAG2. now rewrite !last_flag_twice.
  - cbn. apply (f_equal (@length _)) in HA. rewrite !map_length in HA. lia.
  - cbn. apply (f_equal (@length _)) in HR. rewrite !map_length in HR. lia.
Qed.
Lemma acl_parse_err parse l : (exists x, In x (acc_words l ++ rej_words l) /\ parse x = None) ->
  acl_from_strarray parse l = AclErr.
Proof.
  intros H. unfold acl_from_strarray. rewrite acl_pass1_spec. apply acl_pass2_err; auto; cbn; lia.
Qed.
Lemma map_parse_dec (parse : bytes -> option netaddr) l : (exists A, map parse l = map Some A) \/ exists x, In x l /\ parse x = None.
Proof.
  induction l as [|w l IH]; [left; exists []; reflexivity|].
  destruct (parse w) as [n|] eqn:E; [|right; exists w; cbn; auto].
  destruct IH as [[A HA]|(x & Hx & Px)]; [left; exists (n :: A); cbn; congruence|right; exists x; cbn; auto].
Qed.
Lemma acl_parse_total parse l : acl_from_strarray parse l <> AclFault.
Proof.
  destruct (map_parse_dec parse (acc_words l)) as [[A HA]|(x & Hx & Px)].
  - destruct (map_parse_dec parse (rej_words l)) as [[R HR]|(x & Hx & Px)].
    + rewrite (acl_parse_ok parse l A R HA HR). discriminate.
    + rewrite acl_parse_err; [discriminate|]. exists x. split; auto. apply in_or_app; auto.
  - rewrite acl_parse_err; [discriminate|]. exists x. split; auto. apply in_or_app; auto.
Qed.

Lemma is_in_array_spec l x : Forall (fun n => na_wf n /\ na_plen n <= 128) l -> na_wf x ->
  exists b, is_in_array l x = Some b /\ (b = true <-> in_any l x).
Proof.
  intros Hl Hx. induction Hl as [|n l [W P] Hl IH]; cbn [is_in_array].
  - exists false. split; auto. unfold in_any. split; [discriminate|]. intros (n & [] & _).
  - destruct (is_in_subnet_spec n x) as (b & -> & Hb); auto. destruct b.
    + exists true. split; auto. split; auto. intros _. exists n. split; [left; auto|]. now apply Hb.
    + destruct IH as (b & -> & IHb). exists b. split; auto. rewrite IHb. unfold in_any. split.
      * intros (m & Hm & M). exists m. split; auto. now right.
      * intros (m & [<-|Hm] & M); [apply Hb in M; discriminate|]. exists m; auto.
Qed.
Lemma acl_check_spec a x : Forall (fun n => na_wf n /\ na_plen n <= 128) (acl_accept a) ->
  Forall (fun n => na_wf n /\ na_plen n <= 128) (acl_reject a) -> na_wf x ->
  exists b, acl_check a x = Some b /\ (b = true <-> acl_accepts a x).
Proof.
  intros HA HR Hx. unfold acl_check, acl_accepts.
  destruct (is_in_array_spec _ x HA Hx) as (ba & -> & Ba). destruct (is_in_array_spec _ x HR Hx) as (br & -> & Br).
  destruct (acl_reject_first a), ba, br, (acl_accept_default a); cbn [negb]; eexists; (split; [reflexivity|]); intuition congruence.
Qed.

(** inet_ntop/inet_pton for IPv6: full notation with four digits per group *)
Fixpoint ntop6_ref (b : bytes) : bytes :=
  match b with
  | [x; y] => mac_text [x; y] 0
  | x :: y :: b' => mac_text [x; y] 0 ++ 58 :: ntop6_ref b'
  | _ => []
  end.
Fixpoint pton6_ref (n : nat) (s : bytes) : option bytes :=
  match n with
  | O => None
  | S n' =>
    match bin_from_hex 2 (firstn 4 s) 0 with
    | Some (0, b) =>
      match n', skipn 4 s with
      | O, [] => Some b
      | S _, 58 :: r => match pton6_ref n' r with Some b' => Some (b ++ b') | None => None end
      | _, _ => None
      end
    | _ => None
    end
  end.
Lemma mac2_len x y : length (mac_text [x; y] 0) = 4%nat.
Proof. reflexivity. Qed.
Lemma firstn4_mac x y r : firstn 4 (mac_text [x; y] 0 ++ r) = mac_text [x; y] 0 /\ skipn 4 (mac_text [x; y] 0 ++ r) = r.
Proof. cbn. auto. Qed.
Lemma ntop6_step x y z b : ntop6_ref (x :: y :: z :: b) = mac_text [x; y] 0 ++ 58 :: ntop6_ref (z :: b).
Proof. reflexivity. Qed.
Lemma pton6_step n x y r : is_u8 x -> is_u8 y ->
  pton6_ref (S (S n)) (mac_text [x; y] 0 ++ 58 :: r) = match pton6_ref (S n) r with Some b' => Some ([x; y] ++ b') | None => None end.
Proof.
  intros Ux Uy. destruct (firstn4_mac x y (58 :: r)) as [F1 F2].
  assert (BF : bin_from_hex 2 (mac_text [x; y] 0) 0 = Some (0, [x; y])).
  { apply (bin_from_hex_text [x; y] 0); auto; [repeat (apply Forall_cons; [assumption|]); apply Forall_nil|discriminate]. }
  remember (S n) as k eqn:Ek. cbn [pton6_ref]. rewrite F1, F2, BF. subst k. reflexivity.
Qed.
Lemma inet6_ref_ok : inet6_ok ntop6_ref (pton6_ref 8).
Proof.
  intros b L Hb. do 16 (destruct b as [|? b]; [discriminate|]). destruct b; [|discriminate].
  unfold all_bytes in Hb. repeat match goal with H : Forall _ (_ :: _) |- _ => inversion_clear H end.
  repeat rewrite ntop6_step.
  assert (E : forall x y, ntop6_ref [x; y] = mac_text [x; y] 0) by reflexivity. rewrite E.
  split; [|split; [|split]].
  - repeat rewrite pton6_step by assumption.
    match goal with |- context [pton6_ref 1 (mac_text [?x; ?y] 0)] =>
      assert (PL : pton6_ref 1 (mac_text [x; y] 0) = Some [x; y]) end.
    { cbn [pton6_ref]. destruct (firstn4_mac z13 z14 []) as [F1 F2]. rewrite app_nil_r in F1, F2. rewrite F1, F2.
      change 2%nat with (length [z13; z14]). rewrite (bin_from_hex_text [z13; z14] 0); auto; [repeat (apply Forall_cons; [assumption|]); apply Forall_nil|discriminate]. }
    rewrite PL. reflexivity.
  - cbn. lia.
  - assert (K : forall x y, is_u8 x -> is_u8 y -> Forall hexcolon (mac_text [x; y] 0)).
    { intros x y Ux Uy. eapply Forall_impl; [|apply mac_text_chars; repeat (apply Forall_cons; [assumption|]); apply Forall_nil].
      unfold hexlow, hexcolon. intros; lia. }
    repeat (apply Forall_app; split; [apply K; assumption|]; apply Forall_cons; [unfold hexcolon; auto|]). apply K; assumption.
  - right. apply Nat2Z.inj. rewrite count_occ_cnt. repeat (rewrite cnt_app; cbn [cnt]; change (58 =? 58) with true; cbn iota).
    rewrite !(mac_text_cnt [_; _] 0 58) by (try discriminate; auto; repeat (apply Forall_cons; [assumption|]); apply Forall_nil). reflexivity.
Qed.
