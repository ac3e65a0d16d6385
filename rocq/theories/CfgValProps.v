(** C103-C105: configuration values that pass validation have the binary form
    that their text says. *)
From Verif Require Import Base BufLemmas BitsModel BitsSpec BitsProofs BitsProps StrBase IsoModel IsoSpec IsoProofs IsoProps NetaddrModel NetaddrSpec NetaddrTextProofs NetaddrProps StringModel StringSpec StringProofs StringProps CfgValModel CfgValSpec CfgValProofs.

(** ** C103: numbers *)
Lemma s32_id z : -2147483648 <= z <= 2147483647 -> s32 z = z.
Proof.
  intros H. unfold s32, u32. destruct (Z_lt_le_dec z 0).
  - replace (z mod 4294967296) with (z + 4294967296) by (apply Z.mod_unique with (-1); lia). cbv zeta. destruct (Z.ltb_spec (z + 4294967296) 2147483648); lia.
  - rewrite Z.mod_small by lia. cbv zeta. destruct (Z.ltb_spec z 2147483648); lia.
Qed.
Lemma s64_id z : -9223372036854775808 <= z <= 9223372036854775807 -> s64 z = z.
Proof.
  intros H. unfold s64, u64. destruct (Z_lt_le_dec z 0).
  - replace (z mod 18446744073709551616) with (z + 18446744073709551616) by (apply Z.mod_unique with (-1); lia). cbv zeta. destruct (Z.ltb_spec (z + 18446744073709551616) 9223372036854775808); lia.
  - rewrite Z.mod_small by lia. cbv zeta. destruct (Z.ltb_spec z 9223372036854775808); lia.
Qed.
Lemma scale_pow f : (f <= 19)%nat -> scale f = 10 ^ Z.of_nat f.
Proof.
  intros L. do 20 (destruct f as [|f]; [reflexivity|]). lia.
Qed.
Definition sized (bytelen mn mx : Z) : Prop :=
  bytelen = 4 /\ -2147483648 <= mn /\ mx <= 2147483647 \/ bytelen = 8 /\ -9223372036854775808 <= mn /\ mx <= 9223372036854775807.
(** An accepted number is stored, it is inside of the limits, and there was no message. *)
Theorem C103_accepted fuel v mn mx bytelen fraction msg : sized bytelen mn mx -> validate_int fuel v mn mx bytelen fraction = VRes true msg ->
  exists i, tobin_int fuel v bytelen fraction = IOk i /\ mn <= i <= mx /\ msg = false.
Proof.
  intros Sz. unfold validate_int, tobin_int. destruct (iso_to_s64 fuel v (scale fraction)) as [i| | |]; try discriminate.
  destruct ((8 <? bytelen) || (bytelen <? 1)); [discriminate|]. cbv zeta. destruct (Z.ltb_spec i mn); [discriminate|]. destruct (Z.ltb_spec mx i); [discriminate|]. intros E. injection E as <-.
  destruct Sz as [(-> & A & B)|(-> & A & B)].
  - change (4 =? 4) with true. cbn iota. exists i. split; [f_equal; apply s32_id; lia|]. split; [lia|].
    change (Z.shiftr (-9223372036854775808) (8 * (8 - 4))) with (-2147483648). change (Z.shiftr 9223372036854775807 (8 * (8 - 4))) with 2147483647.
    destruct (Z.ltb_spec i (-2147483648)); [lia|]. destruct (Z.ltb_spec 2147483647 i); [lia|]. reflexivity.
  - change (8 =? 4) with false. change (8 =? 8) with true. cbn iota. exists i. split; [reflexivity|]. split; [lia|].
    change (Z.shiftr (-9223372036854775808) (8 * (8 - 8))) with (-9223372036854775808). change (Z.shiftr 9223372036854775807 (8 * (8 - 8))) with 9223372036854775807.
    destruct (Z.ltb_spec i (-9223372036854775808)); [lia|]. destruct (Z.ltb_spec 9223372036854775807 i); [lia|]. reflexivity.
Qed.
(** A number is accepted exactly if it is inside of the limits, and stored.
    Missing: numbers of more than 64 bits, too many digits (C37). *)
Theorem C103_number_partial fuel neg t n d p fraction mn mx bytelen : IsoText t n d p -> (fraction <= 18)%nat -> d <= 19 -> (20 <= fuel)%nat ->
  (d <= Z.of_nat fraction + 3 * p \/ d - 3 * p < 3) -> n * 10 ^ (Z.max d (Z.of_nat fraction) - d) * 1000 ^ p * 10 ^ Z.of_nat fraction <= U64_MAX ->
  let v := iso_value n d p (10 ^ Z.of_nat fraction) in let i := if neg : bool then - v else v in
  v < 9223372036854775808 -> sized bytelen mn mx ->
  let txt := if neg then 45 :: t else t in
  if (mn <=? i) && (i <=? mx) then validate_int fuel txt mn mx bytelen fraction = VRes true false /\ tobin_int fuel txt bytelen fraction = IOk i
  else exists m, validate_int fuel txt mn mx bytelen fraction = VRes false m.
Proof.
  intros T F D Fu C B v i V Sz txt.
  assert (iso_to_u64 fuel t (10 ^ Z.of_nat fraction) = IOk v) as Eu by (apply (C37_text_value_partial fuel t n d p); auto; lia).
  assert (0 <= v) as V0. { unfold v, iso_value. destruct T as (w & f & point & sp & pre & Et & N & Dw & Df & _ & _ & Pr & -> & ->). apply Z.div_pos; [|pose proof (zlen_nonneg f); lia].
    assert (digits (w ++ f)) as DD by (apply Forall_app; split; [exact Dw|exact Df]). pose proof (place_val_bound _ DD). apply Z.mul_nonneg_nonneg; [apply Z.mul_nonneg_nonneg; [lia|]|]; apply Z.pow_nonneg; lia. }
  assert (starts_minus t = false) as SM. { destruct T as (w & f & point & sp & pre & -> & N & Dw & _). destruct w as [|c w]; [easy|]. cbn. pose proof (Forall_inv Dw) as Dc. cbv beta in Dc. apply Z.eqb_neq. lia. }
  assert (iso_to_s64 fuel txt (scale fraction) = IOk i) as Es.
  { rewrite scale_pow by lia. unfold iso_to_s64, txt, i. destruct neg; cbn [starts_minus tl].
    - change (45 =? 45) with true. cbn iota. rewrite Eu. rewrite s64_id by lia. destruct (Z.eqb_spec v I64_MIN); [unfold I64_MIN in *; lia|]. reflexivity.
    - rewrite SM, Eu. rewrite s64_id by lia. reflexivity. }
  destruct ((mn <=? i) && (i <=? mx)) eqn:Q.
  - assert (exists m, validate_int fuel txt mn mx bytelen fraction = VRes true m) as (m & Ev).
    { unfold validate_int. rewrite Es. assert ((8 <? bytelen) || (bytelen <? 1) = false) as -> by (destruct Sz as [(-> & _)|(-> & _)]; reflexivity). cbv zeta. destruct (Z.ltb_spec i mn); [lia|]. destruct (Z.ltb_spec mx i); [lia|]. eauto. }
    destruct (C103_accepted _ _ _ _ _ _ _ Sz Ev) as (j & Et & J & ->). split; [exact Ev|]. rewrite Et. f_equal. unfold tobin_int in Et. rewrite Es in Et. destruct Sz as [(-> & A & B0)|(-> & A & B0)].
    + change (4 =? 4) with true in Et. cbn iota in Et. injection Et as <-. apply s32_id. lia.
    + change (8 =? 4) with false in Et. change (8 =? 8) with true in Et. cbn iota in Et. congruence.
  - unfold validate_int. rewrite Es. assert ((8 <? bytelen) || (bytelen <? 1) = false) as -> by (destruct Sz as [(-> & _)|(-> & _)]; reflexivity). cbv zeta. destruct (Z.ltb_spec i mn); [eauto|]. destruct (Z.ltb_spec mx i); [eauto|]. lia.
Qed.
Example C103_ex : let t := zs "2.5k" in IsoText t 25 1 1 /\ sized 4 (-10000) 3000000 /\ iso_value 25 1 1 1000 = 2500000 /\
  validate_int 20 t (-10000) 3000000 4 3 = VRes true false /\ tobin_int 20 t 4 3 = IOk 2500000 /\ tobin_int 20 (45 :: t) 4 3 = IOk (-2500000) /\ validate_int 20 (45 :: t) (-10000) 3000000 4 3 = VRes false true.
Proof.
  split; [|split; [left; lia|repeat split; vm_compute; reflexivity]]. exists (zs "2"), (zs "5"), (zs ".5"), [], (zs "k"). split; [reflexivity|]. split; [discriminate|]. split; [repeat constructor; cbn; lia|]. split; [repeat constructor; cbn; lia|]. split; [right; reflexivity|]. split; [constructor|]. split; [constructor|]. split; reflexivity.
Qed.
(** A number beyond INT64_MAX is accepted as a negative one. *)
Theorem C103_wrap_refuted : exists t n mn mx, t = zs "18446744073709551615" /\ place_val t = n /\ mx < n /\ sized 4 mn mx /\
  validate_int 20 t mn mx 4 0 = VRes true false /\ tobin_int 20 t 4 0 = IOk (-1).
Proof. exists (zs "18446744073709551615"), 18446744073709551615, (-1), 255. repeat split; try (vm_compute; reflexivity). left. lia. Qed.
(** Limits beyond the size of the target: the message says that the number is too large, and it is accepted. *)
Theorem C103_size_refuted : exists t mn mx i, validate_int 20 t mn mx 4 0 = VRes true true /\ tobin_int 20 t 4 0 = IOk i /\ i <> place_val t.
Proof. exists (zs "4294967301"), 0, 1099511627776, 5. repeat split; try (vm_compute; reflexivity). vm_compute. discriminate. Qed.

(** ** C104: tokens *)
(** All checks are made, each with its word (the last one with the blanks behind it).
    Missing: more words than entries, words that do not fit into the buffer. *)
Theorem C104_validate_partial v entries optional custom ws w : Words v (ws ++ [w]) -> Forall short (ws ++ [w]) -> zlen entries < 4294967296 ->
  0 <= optional <= zlen entries -> zlen ws < zlen entries ->
  exists p, Words p [w] /\ validate_tokens v entries optional custom =
    Some ((zlen entries - optional <=? zlen ws + 1) && checks entries (ws ++ [p]) && match custom with None => true | Some f => f v end).
Proof. exact (validate_tokens_ok v entries optional custom ws w). Qed.
(** All conversions are made with the words, then with the defaults.  Missing: the default of the last entry. *)
Theorem C104_tobin_partial v entries ws : Words v ws -> Forall short ws -> ws <> [] -> entries <> [] ->
  exists rest, tobin_tokens v entries = Some (converted 0 (firstn (length entries - 1) entries) (ws ++ map te_def (skipn (length ws) entries)) ++ rest) /\
  if zlen ws <? zlen entries then rest = []
  else exists p e, Words p (skipn (length entries - 1) ws) /\ zget entries (zlen entries - 1) = Some e /\ rest = if te_bin e then [(zlen entries - 1, p)] else [].
Proof. exact (tobin_tokens_ok v entries ws). Qed.
Definition tok (d : bytes) (f : bytes -> bool) : tentry := {| te_check := f; te_def := d; te_bin := true |}.
Definition toks : list tentry := [tok (zs "x") (fun w => 2 <=? zlen w); tok (zs "7") (forallb isdigit); tok (zs "9") (fun _ => true)].
Example C104_ex : Words (zs " eth0 12 rest ") [zs "eth0"; zs "12"; zs "rest"] /\ Forall short [zs "eth0"; zs "12"; zs "rest"] /\
  validate_tokens (zs " eth0 12 rest ") toks 1 None = Some true /\ tobin_tokens (zs " eth0 12 rest ") toks = Some [(0, zs "eth0"); (1, zs "12"); (2, zs "rest ")] /\
  validate_tokens (zs "eth0 zz x") toks 1 None = Some false /\ validate_tokens (zs "eth0 ") toks 1 None = Some false.
Proof.
  split; [|split; [repeat constructor; try (vm_compute; discriminate); cbn; lia|repeat split; vm_compute; reflexivity]].
  apply (Words_cons (zs " ") (zs "eth0") (zs " 12 rest ")); try (repeat constructor; fail); [discriminate|intros c r [= <- _]; reflexivity|].
  apply (Words_cons (zs " ") (zs "12") (zs " rest ")); try (repeat constructor; fail); [discriminate|intros c r [= <- _]; reflexivity|].
  apply (Words_cons (zs " ") (zs "rest") (zs " ")); try (repeat constructor; fail); [discriminate|intros c r [= <- _]; reflexivity].
Qed.
(** One word too many: the check reads behind the entries. *)
Theorem C104_words_refuted : exists v entries, entries <> [] /\ validate_tokens v entries 0 None = None /\ tobin_tokens v entries <> None.
Proof. exists (zs "eth0 12 rest more"), toks. split; [discriminate|]. split; [vm_compute; reflexivity|vm_compute; discriminate]. Qed.
(** A missing last word: its entry is not set to the default, unlike the others. *)
Theorem C104_default_refuted : exists v entries l, validate_tokens v entries 2 None = Some true /\ tobin_tokens v entries = Some l /\
  In (1, zs "7") l /\ zlen entries = 3 /\ forall w, ~ In (2, w) l.
Proof.
  exists (zs "eth0"), toks. eexists. split; [vm_compute; reflexivity|]. split; [vm_compute; reflexivity|]. split; [right; left; reflexivity|]. split; [reflexivity|]. intros w [E|[E|[]]]; discriminate.
Qed.
(** A long word is two words. *)
Theorem C104_long_refuted : exists v w entries, Words v [w; zs "b"] /\ zlen entries = 2 /\
  tobin_tokens v entries = Some [(0, firstn 255 w); (1, skipn 255 w ++ zs " b")] /\ skipn 255 w <> [].
Proof.
  exists (repeat 97 300 ++ zs " b"), (repeat 97 300), [tok [] (fun _ => true); tok [] (fun _ => true)]. split; [|split; [reflexivity|split; [vm_compute; reflexivity|vm_compute; discriminate]]].
  apply (Words_cons [] (repeat 97 300) (zs " b")); [constructor|discriminate|apply Forall_forall; intros x Ix; apply repeat_spec in Ix; subst x; reflexivity|intros c r [= <- _]; reflexivity|].
  apply (Words_cons (zs " ") (zs "b") []); [repeat constructor|discriminate|repeat constructor|intros c r E; discriminate E|constructor; constructor].
Qed.

(** ** C105: texts, choices, booleans, sets, access lists *)
Lemma text_no_nul v : no_nul v -> forall r, StringSpec.text (v ++ 0 :: r) = v.
Proof. intros N r. induction N as [|c v Hc N IH]; cbn; [reflexivity|]. destruct (Z.eqb_spec c 0); [easy|]. now rewrite IH. Qed.
(** A text that is shorter than the array is stored as it is. *)
Theorem C105_string_partial dst v len array_size : no_nul v -> validate_strlen v len = true -> len < array_size <= zlen dst ->
  exists d, tobin_strarray dst v array_size = Some (0, d) /\ StringSpec.text d = v /\ zlen d = zlen dst.
Proof.
  intros N L A. unfold validate_strlen in L. destruct (Z.ltb_spec len (zlen v)) as [|L0]; [discriminate|]. clear L. pose proof (zlen_nonneg v) as V.
  unfold tobin_strarray. destruct (Z.ltb_spec (zlen dst) array_size) as [|_]; [lia|].
  destruct (C28_strscpy dst (v ++ [0]) array_size) as (d & E & Q1 & Q2 & (r & Q3) & _); [lia|left; apply in_or_app; right; left; reflexivity|].
  rewrite E. exists d. split; [reflexivity|]. split; [|exact Q1]. rewrite Q3, (text_no_nul v N []), firstn_all2 by (unfold zlen in *; lia). apply text_no_nul, N.
Qed.
(** cfg_schema.h:601-604: CFG_MAP_STRING_ARRAY uses one number as limit and as size of the array; a text that reaches the limit loses its last character. *)
Theorem C105_string_refuted : exists dst v n d, no_nul v /\ validate_strlen v n = true /\ zlen dst = n /\
  tobin_strarray dst v n = Some (0, d) /\ StringSpec.text d <> v.
Proof.
  exists (repeat 0 4), (zs "abcd"), 4, (zs "abc" ++ [0]). split; [repeat constructor; discriminate|]. split; [reflexivity|]. split; [reflexivity|]. split; [vm_compute; reflexivity|]. discriminate.
Qed.
Lemma same_text_b a b : strcase_eqb a b = true <-> same_text a b.
Proof. unfold strcase_eqb, same_text. apply str_eqb_eq. Qed.
Lemma choice_spec key choices : forall i, 0 <= i -> let j := choice_from key choices i in
  j = -1 /\ Forall (fun c => ~ same_text key c) choices \/
  exists a c b, choices = a ++ c :: b /\ same_text key c /\ Forall (fun c => ~ same_text key c) a /\ j = i + zlen a.
Proof.
  induction choices as [|c cs IH]; intros i Hi; cbn [choice_from]; [left; auto|].
  destruct (strcase_eqb key c) eqn:E.
  - right. exists [], c, cs. split; [reflexivity|]. split; [apply same_text_b, E|]. split; [constructor|]. change (zlen []) with 0. lia.
  - assert (~ same_text key c) as N by (intros Q; apply same_text_b in Q; congruence).
    destruct (IH (i + 1)) as [(-> & F)|(a & c' & b & -> & Sc & F & ->)]; [lia|left; split; [reflexivity|constructor; auto]|].
    right. exists (c :: a), c', b. split; [reflexivity|]. split; [exact Sc|]. split; [constructor; auto|]. rewrite zlen_cons. lia.
Qed.
(** A choice is accepted exactly if it is one of them, and the index is that of the first such. *)
Theorem C105_choice v choices : (validate_choice v choices = true <-> exists c, In c choices /\ same_text v c) /\
  (validate_choice v choices = true -> exists a c b, choices = a ++ c :: b /\ same_text v c /\ Forall (fun c => ~ same_text v c) a /\ tobin_choice v choices = zlen a).
Proof.
  unfold validate_choice, tobin_choice, choice_index. destruct (choice_spec v choices 0) as [(-> & F)|(a & c & b & -> & Sc & F & ->)]; [lia| |].
  - split; [split; [discriminate|intros (c & Ic & Sc)]|discriminate]. rewrite Forall_forall in F. destruct (F c Ic Sc).
  - pose proof (zlen_nonneg a). split; [split; [intros _; exists c; split; [apply in_or_app; right; left; reflexivity|exact Sc]|intros _; apply Z.leb_le; lia]|]. intros _. exists a, c, b. auto.
Qed.
(** Booleans *)
Theorem C105_bool v : (validate_bool v = true <-> exists c, In c [zs "true"; zs "1"; zs "on"; zs "yes"; zs "false"; zs "0"; zs "off"; zs "no"] /\ same_text v c) /\
  (tobin_bool v = true <-> exists c, In c [zs "true"; zs "1"; zs "on"; zs "yes"] /\ same_text v c) /\
  (validate_bool v = true -> (tobin_bool v = false <-> exists c, In c [zs "false"; zs "0"; zs "off"; zs "no"] /\ same_text v c)).
Proof.
  pose proof (proj1 (C105_choice v bool_all)) as A. pose proof (proj1 (C105_choice v bool_true)) as B.
  change (validate_choice v bool_all) with (validate_bool v) in A. change (validate_choice v bool_true) with (tobin_bool v) in B.
  split; [exact A|]. split; [exact B|]. intros V. split.
  - intros T. apply A in V. destruct V as (c & Ic & Sc). exists c. split; [|exact Sc]. apply in_app_or in Ic. destruct Ic as [Ic|Ic]; [|exact Ic]. assert (tobin_bool v = true) by (apply B; exists c; auto). congruence.
  - intros (c & Ic & Sc). destruct (tobin_bool v) eqn:T; [|reflexivity]. destruct (proj1 B eq_refl) as (c' & Ic' & Sc'). exfalso. unfold same_text in *. rewrite Sc in Sc'. revert Ic Ic' Sc'. clear. cbn [In].
    intros [<-|[<-|[<-|[<-|[]]]]] [<-|[<-|[<-|[<-|[]]]]]; vm_compute; discriminate.
Qed.
Example C105_choice_ex : validate_choice (zs "OPAQUE") [zs "none"; zs "opaque"; zs "Opaque"] = true /\ tobin_choice (zs "OPAQUE") [zs "none"; zs "opaque"; zs "Opaque"] = 1 /\
  validate_bool (zs "On") = true /\ tobin_bool (zs "On") = true /\ validate_bool (zs "OFF") = true /\ tobin_bool (zs "OFF") = false /\ validate_bool (zs "2") = false.
Proof. vm_compute. repeat split. Qed.

(** *** Sets of numbers *)
Lemma digit_not c : 48 <= c <= 57 -> isspace c = false /\ (c =? 45) = false /\ (c =? 43) = false /\ isdigit c = true.
Proof. intros H. unfold isspace, isdigit. repeat split; lia. Qed.
Lemma strtol_digits v : v <> [] -> digits v -> place_val v <= 255 -> strtol10 v = Some (place_val v, []).
Proof.
  intros N D L. pose proof (place_val_bound v D) as B. destruct v as [|c v]; [easy|]. pose proof (Forall_inv D) as Dc. cbv beta in Dc. destruct (digit_not c Dc) as (A1 & A2 & A3 & A4).
  unfold strtol10. cbn [drop_while]. rewrite A1. cbv zeta. rewrite A2, A3. cbn [orb].
  assert (forallb isdigit (c :: v) = true) as Fd. { apply forallb_forall. intros x Ix. pose proof (proj1 (Forall_forall _ _) D x Ix) as Dx. cbv beta in Dx. apply (digit_not x Dx). }
  pose proof (take_while_app_all isdigit (c :: v) [] Fd) as T. pose proof (drop_while_app_all isdigit (c :: v) [] Fd) as Dr. rewrite !app_nil_r in T, Dr. rewrite T, Dr. cbn [take_while drop_while app]. rewrite ?app_nil_r. cbn iota.
  rewrite digits_val_place, Z.mul_1_l. destruct (Z.ltb_spec (place_val (c :: v)) (-9223372036854775808)); [lia|]. destruct (Z.ltb_spec 9223372036854775807 (place_val (c :: v))); [lia|]. reflexivity.
Qed.
Lemma strtol_minus v : v <> [] -> digits v -> place_val v <= 255 -> strtol10 (45 :: v) = Some (- place_val v, []).
Proof.
  intros N D L. pose proof (place_val_bound v D) as B. destruct v as [|c v]; [easy|].
  unfold strtol10. change (drop_while isspace (45 :: c :: v)) with (45 :: c :: v). cbv beta iota zeta. change (45 =? 45) with true. cbn [orb].
  assert (forallb isdigit (c :: v) = true) as Fd. { apply forallb_forall. intros x Ix. pose proof (proj1 (Forall_forall _ _) D x Ix) as Dx. cbv beta in Dx. apply (digit_not x Dx). }
  pose proof (take_while_app_all isdigit (c :: v) [] Fd) as T. pose proof (drop_while_app_all isdigit (c :: v) [] Fd) as Dr. rewrite !app_nil_r in T, Dr. rewrite T, Dr. cbn [take_while drop_while app]. rewrite ?app_nil_r. cbn iota.
  rewrite digits_val_place. replace (-1 * place_val (c :: v)) with (- place_val (c :: v)) by lia. destruct (Z.ltb_spec (- place_val (c :: v)) (-9223372036854775808)); [lia|]. destruct (Z.ltb_spec 9223372036854775807 (- place_val (c :: v))); [lia|]. reflexivity.
Qed.
Lemma first_not v w c d : (exists r, v = c :: r) -> (exists r, w = d :: r) -> tolower c <> tolower d -> strcase_eqb v w = false.
Proof.
  intros (r & ->) (r' & ->) N. destruct (strcase_eqb (c :: r) (d :: r')) eqn:E; [|reflexivity]. apply same_text_b in E. unfold same_text in E. cbn in E. congruence.
Qed.
Lemma digit_lower c : 48 <= c <= 57 -> tolower c = c.
Proof. intros H. unfold tolower. destruct ((65 <=? c) && (c <=? 90)) eqn:E; lia. Qed.
Lemma digits_no_kw v : v <> [] -> digits v -> strcase_eqb v (zs "all") = false /\ strcase_eqb v (zs "none") = false /\ starts_minus v = false.
Proof.
  intros N D. destruct v as [|c v]; [easy|]. pose proof (Forall_inv D) as Dc. cbv beta in Dc. pose proof (digit_lower c Dc).
  split; [eapply (first_not _ _ c 97); eauto; [eexists; reflexivity|change (tolower 97) with 97; lia]|]. split; [eapply (first_not _ _ c 110); eauto; [eexists; reflexivity|change (tolower 110) with 110; lia]|]. cbn. lia.
Qed.
Definition bm_is (m : bitmap256) (s : Z -> bool) : Prop := bm_wf m /\ forall i, is_u8 i -> bm_get m i = Some (s i).
Lemma bm_full : bm_is (repeat 18446744073709551615 4) (fun _ => true).
Proof.
  split; [split; [reflexivity|repeat constructor; unfold is_u64; lia]|]. intros i Hi. assert (forallb (fun i => match bm_get (repeat 18446744073709551615 4) i with Some b => b | None => false end) (zrange 0 256) = true) as A by (vm_compute; reflexivity).
  rewrite forallb_forall in A. specialize (A i). unfold is_u8 in Hi. assert (In i (zrange 0 256)) as I0 by (apply zrange_In; cbn; lia). apply A in I0. destruct (bm_get _ i) as [b|]; [now subst b|discriminate].
Qed.
Lemma bm_none : bm_is (repeat 0 4) (fun _ => false).
Proof. split; [apply bm_zero_wf|]. intros i Hi. apply bm_zero_get, Hi. Qed.
Lemma bit_word_ok v s s' m : bit_word v s s' -> bm_is m s -> validate_bitmap v = true /\ exists m', bitmap_element m v = Some m' /\ bm_is m' s'.
Proof.
  intros W B. destruct W as [v s E|v s E|v s n N D -> L|v s n N D -> L].
  - apply same_text_b in E. unfold validate_bitmap, bitmap_element. rewrite E. split; [reflexivity|]. eexists. split; [reflexivity|apply bm_full].
  - apply same_text_b in E. unfold validate_bitmap, bitmap_element. rewrite E. rewrite orb_true_r. split; [reflexivity|].
    assert (strcase_eqb v (zs "all") = false) as -> by (destruct (strcase_eqb v (zs "all")) eqn:F; [|reflexivity]; apply same_text_b in E; apply same_text_b in F; unfold same_text in *; rewrite E in F; discriminate F). eexists. split; [reflexivity|apply bm_none].
  - pose proof (place_val_bound v D) as Bd. destruct (digits_no_kw v N D) as (K1 & K2 & K3). unfold validate_bitmap, bitmap_element. rewrite K1, K2, K3, (strtol_digits v N D L). cbn [orb]. rewrite s32_id by lia. split; [lia|].
    assert (is_u8 (place_val v)) as U by (unfold is_u8; lia). assert (u8 (place_val v) = place_val v) as -> by (apply Z.mod_small; unfold is_u8 in U; lia).
    destruct (bm_step_spec m (BmSet (place_val v)) (proj1 B) U) as (m' & E & W' & G). cbn [bm_step bm_op_pos] in *. exists m'. split; [exact E|]. split; [exact W'|]. intros i Hi. rewrite (G i Hi), (Z.eqb_sym i). destruct (place_val v =? i); [reflexivity|apply B, Hi].
  - pose proof (place_val_bound v D) as Bd. unfold validate_bitmap, bitmap_element.
    assert (strcase_eqb (45 :: v) (zs "all") = false) as -> by reflexivity. assert (strcase_eqb (45 :: v) (zs "none") = false) as -> by reflexivity.
    change (starts_minus (45 :: v)) with true. cbn [orb tl]. rewrite (strtol_minus v N D L), (strtol_digits v N D L). rewrite !s32_id by lia. split; [lia|].
    assert (is_u8 (place_val v)) as U by (unfold is_u8; lia). assert (u8 (place_val v) = place_val v) as -> by (apply Z.mod_small; unfold is_u8 in U; lia).
    destruct (bm_step_spec m (BmReset (place_val v)) (proj1 B) U) as (m' & E & W' & G). cbn [bm_step bm_op_pos] in *. exists m'. split; [exact E|]. split; [exact W'|]. intros i Hi. rewrite (G i Hi), (Z.eqb_sym i). destruct (place_val v =? i); [reflexivity|apply B, Hi].
Qed.
(** Lists of numbers (with - to take one out), all, and none are accepted and give the set that they say.
    Missing: that nothing else is accepted. *)
Theorem C105_bitmap_partial vs s : bit_words vs (fun _ => false) s -> Forall (fun v => validate_bitmap v = true) vs /\
  exists m, tobin_bitmap vs = Some m /\ forall i, is_u8 i -> bm_get m i = Some (s i).
Proof.
  unfold tobin_bitmap. assert (forall vs s s', bit_words vs s s' -> forall m, bm_is m s -> Forall (fun v => validate_bitmap v = true) vs /\ exists m', bitmap_elements m vs = Some m' /\ bm_is m' s') as H.
  { clear. intros vs s s' W. induction W as [s|v vs s s' s'' W Ws IH]; intros m B; [split; [constructor|exists m; auto]|].
    destruct (bit_word_ok v s s' m W B) as (V & m1 & E & B1). destruct (IH m1 B1) as (F & m2 & E2 & B2). split; [constructor; auto|]. exists m2. cbn [bitmap_elements]. rewrite E. auto. }
  intros W. destruct (H _ _ _ W _ bm_none) as (F & m & E & B). split; [exact F|]. exists m. split; [exact E|apply B].
Qed.
Example C105_bitmap_ex : bit_words [zs "ALL"; zs "-7"; zs "-0"; zs "7"] (fun _ => false) (fun i => (i =? 7) || (negb (i =? 0) && (negb (i =? 7) && true))) /\
  match tobin_bitmap [zs "ALL"; zs "-7"; zs "-0"; zs "7"] with Some m => bm_get m 7 = Some true /\ bm_get m 0 = Some false /\ bm_get m 8 = Some true | None => False end.
Proof.
  split; [|vm_compute; repeat split]. eapply bws_cons; [apply bw_all; reflexivity|]. eapply bws_cons; [apply (bw_out (zs "7") _ 7); [discriminate|apply Forall_cons; [cbn; lia|apply Forall_nil]|reflexivity|lia]|]. eapply bws_cons; [apply (bw_out (zs "0") _ 0); [discriminate|apply Forall_cons; [cbn; lia|apply Forall_nil]|reflexivity|lia]|]. eapply bws_cons; [apply (bw_in (zs "7") _ 7); [discriminate|apply Forall_cons; [cbn; lia|apply Forall_nil]|reflexivity|lia]|]. apply bws_nil.
Qed.
(** Accepted although it is no number (1), too large (2), or set although it should be taken out (3). *)
Theorem C105_bitmap_refuted : exists v1 v2 v3, v1 = [] /\ v2 = zs "4294967301" /\ v3 = zs " -5" /\
  Forall (fun v => validate_bitmap v = true) [v1; v2; v3] /\
  exists m1 m2 m3, tobin_bitmap [v1] = Some m1 /\ bm_get m1 0 = Some true /\ tobin_bitmap [v2] = Some m2 /\ bm_get m2 5 = Some true /\
  tobin_bitmap [v3] = Some m3 /\ bm_get m3 251 = Some true.
Proof.
  exists [], (zs "4294967301"), (zs " -5"). split; [reflexivity|]. split; [reflexivity|]. split; [reflexivity|]. split; [repeat constructor; vm_compute; reflexivity|].
  eexists _, _, _. split; [vm_compute; reflexivity|]. split; [vm_compute; reflexivity|]. split; [vm_compute; reflexivity|]. split; [vm_compute; reflexivity|]. split; [vm_compute; reflexivity|]. vm_compute. reflexivity.
Qed.

(** *** Access lists *)
Lemma kw_word w : is_kw w = match acl_keyword acl_empty w with Some _ => true | None => false end.
Proof. unfold is_kw, acl_kws, acl_keyword. cbn [existsb]. destruct (strcase_eqb w (zs "default_accept")), (strcase_eqb w (zs "default_reject")), (strcase_eqb w (zs "first_accept")), (strcase_eqb w (zs "first_reject")); reflexivity. Qed.
Lemma validate_acl_eq parse v prefix af : validate_acl parse v prefix af = is_kw v || validate_netaddr parse (strip_sign v) prefix af.
Proof.
  unfold validate_acl. rewrite kw_word. destruct (acl_keyword acl_empty v); [reflexivity|]. cbn [orb]. destruct v as [|c r]; [reflexivity|].
  destruct (Z.eqb_spec c 43) as [->|N1]; [reflexivity|]. destruct (Z.eqb_spec c 45) as [->|N2]; [reflexivity|]. cbn [orb].
  assert (strip_sign (c :: r) = c :: r) as ->; [|reflexivity]. unfold strip_sign. destruct c as [|p|p]; try reflexivity. do 6 (destruct p as [p|p|]; try reflexivity); lia.
Qed.
(** A list of which all elements are accepted becomes an access list with exactly its addresses, each inside of the limits. *)
Theorem C105_acl parse l prefix af : Forall (fun v => validate_acl parse v prefix af = true) l ->
  exists A R, map parse (acc_words l) = map Some A /\ map parse (rej_words l) = map Some R /\
  (exists first dflt, acl_from_strarray parse l = AclOk {| acl_accept := A; acl_reject := R; acl_reject_first := first; acl_accept_default := dflt |}) /\
  Forall (fun a => In (na_type a) af /\ na_plen a <= maxprefix a /\ (prefix = false -> na_plen a = maxprefix a)) (A ++ R).
Proof.
  intros F.
  assert (forall g, (forall w, g w = true -> is_kw w = false) -> exists A, map parse (map strip_sign (filter g l)) = map Some A /\ Forall (fun a => In (na_type a) af /\ na_plen a <= maxprefix a /\ (prefix = false -> na_plen a = maxprefix a)) A) as H.
  { intros g G. induction F as [|v l V F IH]; [exists []; split; [reflexivity|constructor]|]. cbn [filter]. destruct IH as (A & E & FA). destruct (g v) eqn:Gv; [|exists A; auto].
    rewrite validate_acl_eq, (G v Gv) in V. cbn [orb] in V. unfold validate_netaddr in V. destruct (parse (strip_sign v)) as [a|] eqn:P; [|discriminate].
    apply andb_prop in V. destruct V as (V & V3). apply andb_prop in V. destruct V as (V1 & V2). apply existsb_exists in V3. destruct V3 as (t & It & Et). apply Z.eqb_eq in Et. subst t.
    exists (a :: A). split; [cbn; rewrite P; now f_equal|]. constructor; [|exact FA]. split; [exact It|]. split; [lia|]. intros ->. cbn [orb] in V2. lia. }
  destruct (H (fun w => negb (is_kw w) && negb (is_neg w))) as (A & EA & FA); [intros w; destruct (is_kw w); [discriminate|reflexivity]|].
  destruct (H (fun w => negb (is_kw w) && is_neg w)) as (R & ER & FR); [intros w; destruct (is_kw w); [discriminate|reflexivity]|].
  exists A, R. split; [exact EA|]. split; [exact ER|]. split; [|apply Forall_app; auto]. eexists _, _. apply C27_acl_parse; assumption.
Qed.
Example C105_acl_ex : let parse := from_string pton4_ref (pton6_ref 8) in let l := [zs "first_reject"; zs "-10.1.200.0/24"; zs "+10.1.128.0/17"; zs "10.2.0.1"; zs "DEFAULT_accept"] in
  Forall (fun v => validate_acl parse v true [2; 10] = true) l /\ validate_acl parse (zs "10.2.0.0/33") true [2; 10] = false /\ validate_acl parse (zs "10.2.0.0/24") false [2; 10] = false /\ validate_acl parse (zs "::1") false [2] = false.
Proof. cbv zeta. split; [|vm_compute; repeat split]. repeat constructor; vm_compute; reflexivity. Qed.

Print Assumptions C103_accepted.
Print Assumptions C103_number_partial.
Print Assumptions C103_wrap_refuted.
Print Assumptions C103_size_refuted.
Print Assumptions C104_validate_partial.
Print Assumptions C104_tobin_partial.
Print Assumptions C104_words_refuted.
Print Assumptions C104_default_refuted.
Print Assumptions C104_long_refuted.
Print Assumptions C105_string_partial.
Print Assumptions C105_string_refuted.
Print Assumptions C105_choice.
Print Assumptions C105_bool.
Print Assumptions C105_bitmap_partial.
Print Assumptions C105_bitmap_refuted.
Print Assumptions C105_acl.
