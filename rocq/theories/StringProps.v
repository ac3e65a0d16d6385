(** String properties (C28-C31, C56, C57). *)
From Verif Require Import Base BitsModel StrBase BufLemmas SplitLemmas NetaddrModel StringModel StringSpec StringProofs StringArrProofs.

(** C28: [size] bytes of the destination are replaced by the longest prefix of
    the source that fits and a terminating zero; the source needs a zero only
    if it is shorter than the destination. *)
Theorem C28_strscpy dest src size : 1 <= size <= zlen dest -> readable src (size - 1) ->
  exists dest', strscpy dest 0 (Some src) size = Some dest' /\
    holds_text dest dest' size (firstn (Z.to_nat (size - 1)) (text src)).
Proof.
  intros H R. destruct (zsplit dest size) as (body & post & -> & L1 & L2); [lia|].
  destruct (strscpy_split [] body post src size L1) as (t & z & Et & L & E); [lia|auto|].
  rewrite <- Et. cbn [app] in E. change (zlen []) with 0 in E. eexists. split; [exact E|].
  rewrite zlen_app, zlen_cons in L. pose proof (zlen_nonneg z).
  split; [rewrite !zlen_app, zlen_cons, L1; lia|]. split; [lia|]. split.
  - exists (z ++ post). now rewrite <- app_assoc.
  - intros i Hi. rewrite !zget_app. rewrite zlen_app, zlen_cons, L1. destruct (Z.ltb_spec i (zlen t + (zlen z + 1))); [lia|].
    destruct (Z.ltb_spec i size); [lia|]. f_equal. lia.
Qed.
(** C28: strscat; nothing is written if the old text does not leave room *)
Theorem C28_strscat dest src size old r : dest = old ++ 0 :: r -> no_nul old -> 1 <= size <= zlen dest ->
  readable src (Z.max 1 (size - zlen old - 1)) ->
  exists dest', strscat dest (Some src) size = Some dest' /\
    (size <= zlen old -> dest' = dest) /\
    (zlen old < size -> zlen dest' = zlen dest /\
       (exists r', dest' = firstn (Z.to_nat (size - 1)) (old ++ text src) ++ 0 :: r') /\
       forall i, size <= i -> zget dest' i = zget dest i).
Proof.
  intros -> N H R. unfold strscat. destruct (Z.eqb_spec size 0); [lia|].
  assert (firstn (Z.to_nat (size - 1)) old = old \/ size <= zlen old) as FO.
  { destruct (Z.leb_spec size (zlen old)); auto. left. apply firstn_all2. unfold zlen in *. lia. }
  destruct src as [|c src].
  { exfalso. destruct R as [[]|R]. rewrite (@zlen_nil Z) in R. lia. }
  cbn [zget Z.ltb]. change (zget (c :: src) 0) with (Some c). cbv iota beta. destruct (Z.eqb_spec c 0) as [->|Hc].
  { eexists. split; [reflexivity|]. split; auto. intros Hs. split; auto. split; auto.
    cbn [text]. cbn. rewrite app_nil_r. destruct FO as [->|]; [eauto|lia]. }
  rewrite (strlen_split [] old r 0 eq_refl N : strlen (old ++ 0 :: r) 0 = _).
  destruct (Z.ltb_spec (zlen old) size) as [Q|Q]; [|eexists; split; [reflexivity|]; split; auto; lia].
  rewrite zlen_app in H. pose proof (zlen_nonneg old).
  destruct (zsplit (0 :: r) (size - zlen old)) as (body & post & E & L1 & L2); [lia|]. rewrite E.
  destruct (strscpy_split old body post (c :: src) (size - zlen old) L1) as (t & z & Et & L & ES); [lia| |].
  { destruct R as [R|R]; [now left|right; lia]. }
  rewrite ES. eexists. split; [reflexivity|]. split; [lia|]. intros _.
  rewrite zlen_app, zlen_cons in L. pose proof (zlen_nonneg z).
  split; [rewrite !zlen_app, zlen_cons; lia|]. split.
  - exists (z ++ post). rewrite firstn_app. destruct FO as [->|]; [|lia].
    replace (Z.to_nat (size - 1) - length old)%nat with (Z.to_nat (size - zlen old - 1)) by (unfold zlen; lia).
    rewrite <- Et, <- !app_assoc. reflexivity.
  - intros i Hi. rewrite !zget_app. rewrite zlen_app, zlen_cons, L1.
    destruct (Z.ltb_spec i (zlen old)); [lia|]. destruct (Z.ltb_spec (i - zlen old) (zlen t + (zlen z + 1))); [lia|].
    destruct (Z.ltb_spec (i - zlen old) (size - zlen old)); [lia|]. f_equal. lia.
Qed.
(** C28: size 0 and NULL: nothing happens *)
Theorem C28_nothing_written dest off src size :
  strscpy dest off src 0 = Some dest /\ strscpy dest off None size = Some dest /\
  strscat dest src 0 = Some dest /\ strscat dest None size = Some dest.
Proof. destruct src; repeat split; reflexivity. Qed.

Example C28_ex : strscat (zs "ab" ++ [0; 7; 7; 7; 9]) (Some (zs "cdefgh" ++ [0])) 6 = Some (zs "abcde" ++ [0; 9]).
Proof. reflexivity. Qed.
Example C28_ex_copy : strscpy (repeat 7 6) 0 (Some (zs "abc")) 4 = Some (zs "abc" ++ [0; 7; 7]).
Proof. reflexivity. Qed.

(** C29: binary to text and back *)
Theorem C29_round_trip src buf buf_len out out_len : all_bytes src -> zlen buf = buf_len -> zlen out = out_len ->
  zlen src * 2 + 1 <= buf_len -> zlen src <= out_len ->
  exists t r, hex_from_bin buf buf_len src = Some (zlen t, t ++ 0 :: r) /\ no_nul t /\ zlen (t ++ 0 :: r) = buf_len /\
    exists r', hex_to_bin out out_len t = Some (zlen src, src ++ r') /\ zlen (src ++ r') = out_len.
Proof.
  intros A <- <- H1 H2. unfold hex_from_bin. destruct (Z.ltb_spec (zlen buf) (zlen src * 2 + 1)); [lia|].
  pose proof (zlen_nonneg src). destruct (zsplit buf (2 * zlen src + 1)) as (body & rest & -> & L1 & L2); [lia|].
  destruct (hex_write_ok src A [] body rest L1) as (t & T1 & T2 & T3 & T4). cbn [app] in T4. change (zlen []) with 0 in T4. rewrite T4.
  rewrite Z.add_0_l. exists t, rest. split; [reflexivity|].
  assert (no_nul t) as N by (eapply Forall_impl; [|exact T2]; intros c; unfold lower_hex; lia).
  assert (all_bytes t) as AT by (eapply Forall_impl; [|exact T2]; intros c; unfold lower_hex, is_u8; lia).
  split; auto. split; [rewrite !zlen_app, zlen_cons; lia|].
  unfold hex_to_bin. replace 1 with (Z.ones 1) by reflexivity. rewrite Z.land_ones, T3 by lia. change (2 ^ 1) with 2.
  rewrite Z.mul_comm, Z.mod_mul, Z.div_mul by lia. destruct (Z.ltb_spec (zlen out) (zlen src)); [lia|]. cbn [negb Z.eqb orb].
  destruct (zsplit out (zlen src)) as (b1 & r' & -> & L3 & L4); [lia|]. exists r'.
  pose proof (hex_read_ok t src T1 AT N [] b1 r' L3) as E. cbn [app] in E. change (zlen []) with 0 in E. rewrite E.
  split; [reflexivity|]. rewrite !zlen_app. lia.
Qed.
(** C29: exactly the texts of complete pairs of hexadecimal digits that fit are
    accepted; the result is what the digits say; nothing is written behind the
    end of the buffer in any case *)
Theorem C29_only_hex_accepted out src : all_bytes src -> no_nul src ->
  exists r out', hex_to_bin out (zlen out) src = Some (r, out') /\ zlen out' = zlen out /\
    (forall bs, HexText src bs -> zlen bs <= zlen out -> r = zlen bs /\ firstn (length bs) out' = bs) /\
    (r <> -1 -> exists bs, HexText src bs /\ zlen bs <= zlen out).
Proof.
  intros A N. unfold hex_to_bin. pose proof (zlen_nonneg src).
  assert (Z.land (zlen src) 1 = zlen src mod 2) as LM by (replace 1 with (Z.ones 1) by reflexivity; now rewrite Z.land_ones by lia).
  rewrite LM. destruct (Z.eqb_spec (zlen src mod 2) 0) as [M|M]; cbn [negb orb].
  2:{ exists (-1), out. split; auto. split; auto. split; [|easy]. intros bs T. apply HexText_len in T.
      rewrite T, Z.mul_comm, Z.mod_mul in M by lia. easy. }
  destruct (Z.ltb_spec (zlen out) (zlen src / 2)) as [F|F].
  { exists (-1), out. split; auto. split; auto. split; [|easy]. intros bs T. apply HexText_len in T.
    rewrite T, Z.mul_comm, Z.div_mul in F by lia. lia. }
  assert (2 * (zlen src / 2) = zlen src) as D by (pose proof (Z.div_mod (zlen src) 2); lia).
  destruct (zsplit out (zlen src / 2)) as (b1 & r' & -> & L3 & L4); [lia|].
  destruct (hex_read_len src [] b1 r') as (r & b' & E & L & R); [lia|]. cbn [app] in E. change (zlen []) with 0 in *.
  exists r, (b' ++ r'). split; auto. split; [rewrite !zlen_app; lia|]. split.
  - intros bs T Hl. pose proof (HexText_len _ _ T) as LT. pose proof (hex_read_ok src bs T A N [] b1 r' ltac:(lia)) as E2.
    cbn [app] in E2. change (zlen []) with 0 in E2. rewrite E in E2. injection E2 as -> E2. split; [lia|]. rewrite E2.
    rewrite firstn_app, Nat.sub_diag, firstn_all. cbn. apply app_nil_r.
  - intros NR. destruct R as [R|R]; [easy|]. destruct (hex_read_bad src A N (b1 ++ r') 0 (b' ++ r')) as (bs & T).
    + rewrite E. f_equal. f_equal. lia.
    + lia.
    + congruence.
    + exists bs. split; auto. apply HexText_len in T. lia.
Qed.
Example C29_ex : hex_from_bin (repeat 1 9) 9 [0; 171; 255] = Some (6, zs "00abff" ++ [0; 1; 1]) /\
  hex_to_bin (repeat 1 4) 4 (zs "00AbfF") = Some (3, [0; 171; 255; 1]) /\ hex_to_bin (repeat 1 4) 4 (zs "00ag") = Some (-1, [0; 1; 1; 1]).
Proof. repeat split. Qed.

(** C30: after any history of operations on two arrays, with any pattern of
    failing allocations: no invalid access, and iteration, count and lookup
    show exactly the abstract sequence *)
Theorem C30_array_is_sequence junk ops : Forall op_ok ops ->
  exists a b, sa_run junk (sa_init, sa_init) ops = Some (a, b) /\
    let ws := fst (fold_left spec_step ops ([], [])) in
    sa_get_count a = Some (zlen ws) /\
    (exists l, sa_offsets a = Some l /\ map (sa_string a) l = map Some ws) /\
    (forall i, 0 <= i < zlen ws -> exists p, sa_get a i = Some (Some p) /\ sa_string a p = zget ws i) /\
    (forall i, zlen ws <= i -> sa_get a i = Some None) /\
    (sa_is_empty a = true <-> ws = []).
Proof.
  intros F. assert (reps sa_init []) as R0 by (repeat split; constructor).
  destruct (run_reps junk ops sa_init sa_init [] [] R0 R0 F) as (a & b & E & R & _). exists a, b. split; auto. cbn zeta.
  set (ws := fst (fold_left spec_step ops ([], []))) in *. clearbody ws.
  split; [unfold sa_get_count; rewrite (offsets_reps _ _ R), offs_len; reflexivity|].
  assert (forall i, 0 <= i < zlen ws -> exists p, sa_get a i = Some (Some p) /\ sa_string a p = zget ws i) as G.
  { intros i Hi. rewrite (get_reps a ws i R). destruct (zget_Some ws i Hi) as (s & Es). rewrite Es. eexists. split; [reflexivity|].
    now apply string_reps. }
  split; [|split; [exact G|split]].
  - exists (offs 0 ws). split; [now apply offsets_reps|]. apply zget_ext; [unfold zlen; rewrite !map_length; apply offs_len|].
    intros i Hi. unfold zlen in Hi. rewrite map_length in Hi. fold (zlen (offs 0 ws)) in Hi. rewrite offs_len in Hi.
    destruct (G i Hi) as (p & E1 & E2). unfold sa_get in E1. rewrite (offsets_reps _ _ R) in E1.
    unfold zget in *. destruct (i <? 0); [discriminate|]. injection E1 as E1. rewrite !nth_error_map, E1. cbn [option_map].
    destruct (nth_error ws (Z.to_nat i)) eqn:X; cbn; [now rewrite E2|]. apply nth_error_None in X. unfold zlen in Hi. lia.
  - intros i Hi. rewrite (get_reps a ws i R). destruct (zget ws i) eqn:X; auto. apply zget_bound in X. lia.
  - destruct R as (_ & _ & R). unfold sa_is_empty. destruct (sa_value a) as [v|]; [|tauto]. destruct R as [R _]. split; [discriminate|easy].
Qed.
(** C30: strarray_get_next_safe does not return NULL behind the last string *)
Theorem C30_next_safe_refuted : exists junk a b p, sa_run junk (sa_init, sa_init) [SaAppend true (zs "a")] = Some (a, b) /\
  sa_get_count a = Some 1 /\ sa_get a 0 = Some (Some p) /\ sa_next_safe a p = Some (Some 2) /\ sa_length a = 2.
Proof.
  exists (fun _ => 0). do 3 eexists. split; [vm_compute; reflexivity|]. repeat split; vm_compute; reflexivity.
Qed.
Example C30_ex : exists a b, sa_run (fun _ => 5) (sa_init, sa_init)
    [SaAppend true (zs "b"); SaAppend true []; SaPrepend true (zs "a"); SaAppend false (zs "x"); SaSwap; SaCopy true; SaRemove true 1 true] = Some (a, b) /\
  fst (fold_left spec_step [SaAppend true (zs "b"); SaAppend true []; SaPrepend true (zs "a"); SaAppend false (zs "x"); SaSwap; SaCopy true; SaRemove true 1 true] ([], []))
    = [zs "a"; []] /\ sa_length a = 3.
Proof. do 2 eexists. split; [vm_compute; reflexivity|]. split; reflexivity. Qed.

(** C31: every string has exactly one sequence of words *)
Theorem C31_words_exist_unique s : exists ws, Words s ws /\ forall ws', Words s ws' -> ws' = ws.
Proof.
  destruct (Words_exist s) as (ws & W). exists ws. split; auto. intros ws' W'. symmetry. eapply Words_fun; eauto.
Qed.
(** C31: the first word is copied, as far as it fits; the result points to the
    next word (NULL if there is none).  If the word does not fit, the result
    points to its remaining part. *)
Theorem C31_cpynextword dst s len ws : 1 <= len <= zlen dst -> len < 18446744073709551616 -> Words s ws ->
  exists dst' next, cpynextword dst (Some s) len = Some (dst', next) /\
    zlen dst' = zlen dst /\ (forall i, len <= i -> zget dst' i = zget dst i) /\
    match ws with
    | [] => next = None /\ exists r, dst' = 0 :: r
    | w :: ws' =>
      (exists r, dst' = firstn (Z.to_nat (len - 1)) w ++ 0 :: r) /\
      (zlen w < len -> match next with None => ws' = [] | Some r => ws' <> [] /\ Words r ws' end) /\
      (len <= zlen w -> exists r, next = Some r /\ Words r (skipn (Z.to_nat (len - 1)) w :: ws'))
    end.
Proof.
  intros H HL W. destruct (zsplit dst len) as (body & post & -> & L1 & L2); [lia|].
  destruct (zsplit body (len - 1)) as (b1 & b2 & -> & L3 & L4); [lia|].
  destruct b2 as [|x b2]; [rewrite (@zlen_nil Z) in L4; lia|]. rewrite zlen_cons in L4. assert (b2 = []) as -> by (apply zlen_zero; lia).
  rewrite <- app_assoc. cbn [app]. unfold cpynextword.
  destruct (copy_word_spec len (b1 ++ x :: post) (drop_while isblank s) [] b1 (x :: post)) as (junk & J1 & J2);
    [reflexivity|lia|auto|change (zlen []) with 0; lia|]. change (zlen []) with 0 in *. cbn [app] in J2. rewrite J2. clear J2.
  fold (word1 s) in *. rewrite Z.sub_0_r, Z.add_0_l in *. set (k := Z.to_nat (len - 1)) in *. set (f := firstn k (word1 s)) in *.
  assert (exists y junk', junk ++ x :: post = y :: junk' ++ post /\ zlen junk' = zlen junk) as (y & junk' & EJ & LJ).
  { destruct junk as [|y junk]; [exists x, []; auto|]. exists y, (junk ++ [x]). split; [now rewrite <- app_assoc|]. rewrite zlen_app, !zlen_cons. reflexivity. }
  rewrite EJ, (zset_split f (junk' ++ post) y 0 _ eq_refl).
  eexists _, _. split; [reflexivity|]. 
  split; [rewrite !zlen_app, !zlen_cons, ?zlen_app; lia|]. split.
  { intros i Hi. replace (f ++ 0 :: junk' ++ post) with ((f ++ 0 :: junk') ++ post) by (now rewrite <- app_assoc).
    replace (b1 ++ x :: post) with ((b1 ++ [x]) ++ post) by (now rewrite <- app_assoc).
    rewrite !zget_app. rewrite !zlen_app, !zlen_cons, (@zlen_nil Z).
    destruct (Z.ltb_spec i (zlen f + (zlen junk' + 1))); [lia|]. destruct (Z.ltb_spec i (zlen b1 + (0 + 1))); [lia|]. f_equal. lia. }
  destruct ws as [|w ws].
  - apply Words_none in W. assert (word1 s = []) as E by now apply word1_empty. unfold f. rewrite E, firstn_nil, W. cbn. eauto.
  - apply Words_next in W as (E1 & N1 & W1). subst w. split; [eauto|].
    assert (drop_while isblank s = word1 s ++ behind1 s) as ES by (unfold word1, behind1; now rewrite take_drop).
    rewrite ES. split; intros Hw.
    + unfold f. rewrite firstn_all2 by (unfold k, zlen in *; lia). rewrite skipn_app, skipn_all, Nat.sub_diag. cbn [skipn app].
      now apply next_or_null_words.
    + assert (length f = k) as Lf by (unfold f; rewrite firstn_length; unfold k, zlen in *; lia).
      rewrite Lf, skipn_app. replace (k - length (word1 s))%nat with O by (unfold k, zlen in *; lia). cbn [skipn].
      set (w2 := skipn k (word1 s)).
      assert (w2 <> []) as N2. { intros X. apply (f_equal (@length Z)) in X. unfold w2 in X. rewrite skipn_length in X. unfold k, zlen in *. cbn in X. lia. }
      assert (Forall (fun c => isblank c = false) (word1 s)) as FB.
      { apply Forall_forall. intros c Hc. pose proof (take_while_all (fun c => negb (isblank c)) (drop_while isblank s)) as A.
        rewrite forallb_forall in A. specialize (A c Hc). now destruct (isblank c). }
      assert (Forall (fun c => isblank c = false) w2) as FB2 by now apply Forall_skipn.
      exists (w2 ++ behind1 s). split.
      * unfold next_or_null. rewrite drop_while_none.
        -- destruct w2; [easy|reflexivity].
        -- intros c r Ec. destruct w2 as [|z w2]; [easy|]. injection Ec as <- _. now inversion FB2.
      * apply (Words_cons [] w2 (behind1 s) ws); auto. intros c r' Er. unfold behind1 in Er. apply drop_while_head in Er. now destruct (isblank c).
Qed.
(** C31: skipping and counting *)
Theorem C31_skipnextword s ws : Words s ws ->
  match skipnextword (Some s) with None => (length ws <= 1)%nat | Some r => (2 <= length ws)%nat /\ Words r (tl ws) end.
Proof. exact (skip_words s ws). Qed.
Theorem C31_countwords s ws : Words s ws -> countwords (Some s) = Some (zlen ws).
Proof.
  intros W. unfold countwords. rewrite (count_loop_words (length s) (drop_while isblank s) ws).
  - f_equal.
  - destruct (drop_while_cut isblank s) as (b & E & Hb). rewrite E in W. now apply Words_blank in W.
  - now apply Words_count.
  - intros c r D. now apply drop_while_head in D.
Qed.
(** C31: the first word is compared without case *)
Theorem C31_hasnextword s word ws : word <> [] -> Words s ws ->
  (forall r, hasnextword s word = Some r -> exists w ws', ws = w :: ws' /\ map tolower w = map tolower word /\ Words r ws') /\
  (hasnextword s word = None -> forall w ws', ws = w :: ws' -> map tolower w <> map tolower word).
Proof.
  intros N W. rewrite hasnextword_eq. destruct (str_eqb _ _) eqn:E.
  - split; [|discriminate]. apply str_eqb_eq in E. intros r [= <-]. destruct ws as [|w ws].
    { apply Words_none in W. apply word1_empty in W. rewrite W in E. destruct word; easy. }
    apply Words_next in W as (<- & _ & W). exists (word1 s), ws. split; auto. split; auto.
    destruct (drop_while_cut isblank (behind1 s)) as (b & Eb & Hb). rewrite Eb in W. now apply Words_blank in W.
  - split; [discriminate|]. intros _ w ws' -> Q. apply Words_next in W as (<- & _ & _). rewrite Q, str_eqb_refl in E. discriminate.
Qed.
(** C31: str_trim *)
Theorem C31_trim s : trimmed s (str_trim s) /\ forall t, trimmed s t -> t = str_trim s.
Proof. split; [apply trim_spec|]. intros t H. eapply trimmed_fun; [exact H|apply trim_spec]. Qed.
(** C31: with length 0 the copy is not bounded at all *)
Theorem C31_cpynextword_length_zero_refuted : exists dst s, zlen dst = 2 /\ cpynextword dst (Some s) 0 = None.
Proof. exists [1; 1], (zs "abc"). split; reflexivity. Qed.

Example C31_ex : Words (zs "  ab	c  ") [zs "ab"; zs "c"] /\ countwords (Some (zs "  ab	c  ")) = Some 2 /\
  cpynextword (repeat 1 4) (Some (zs "  ab	c  ")) 4 = Some (zs "ab" ++ [0; 1], Some (zs "c  ")) /\
  cpynextword (repeat 1 4) (Some (zs " abcde f")) 4 = Some (zs "abc" ++ [0], Some (zs "de f")) /\
  hasnextword (zs " Ab c") (zs "aB") = Some (zs "c") /\ str_trim (zs "  a b  ") = zs "a b".
Proof.
  split; [|repeat split].
  apply (Words_cons (zs "  ") (zs "ab") (zs "	c  ")); try (repeat constructor; fail); [discriminate|intros c r [= <- _]; reflexivity|].
  apply (Words_cons (zs "	") (zs "c") (zs "  ")); try (repeat constructor; fail); [discriminate|intros c r [= <- _]; reflexivity].
Qed.

(** C56: strarray_cmp is a total order, and zero means that both arrays are the
    same sequence of strings *)
Theorem C56_strarray_cmp junk ops ops' ops'' : Forall op_ok ops -> Forall op_ok ops' -> Forall op_ok ops'' ->
  let ws := fst (fold_left spec_step ops ([], [])) in
  let ws' := fst (fold_left spec_step ops' ([], [])) in
  exists a b c d e f, sa_run junk (sa_init, sa_init) ops = Some (a, d) /\ sa_run junk (sa_init, sa_init) ops' = Some (b, e) /\
    sa_run junk (sa_init, sa_init) ops'' = Some (c, f) /\
  exists r1 r2 r3 r4, sa_cmp a b = Some r1 /\ sa_cmp b a = Some r2 /\ sa_cmp b c = Some r3 /\ sa_cmp a c = Some r4 /\
    (r1 = 0 <-> ws = ws') /\ r2 = - r1 /\ (r1 <= 0 -> r3 <= 0 -> r4 <= 0).
Proof.
  intros F F' F''. assert (reps sa_init []) as R0 by (repeat split; constructor). cbn zeta.
  destruct (run_reps junk ops sa_init sa_init [] [] R0 R0 F) as (a & d & Ea & Ra & _).
  destruct (run_reps junk ops' sa_init sa_init [] [] R0 R0 F') as (b & e & Eb & Rb & _).
  destruct (run_reps junk ops'' sa_init sa_init [] [] R0 R0 F'') as (c & f & Ec & Rc & _).
  exists a, b, c, d, e, f. split; auto. split; auto. split; auto.
  rewrite (cmp_reps _ _ _ _ Ra Rb), (cmp_reps _ _ _ _ Rb Ra), (cmp_reps _ _ _ _ Rb Rc), (cmp_reps _ _ _ _ Ra Rc).
  do 4 eexists. split; [reflexivity|]. split; [reflexivity|]. split; [reflexivity|]. split; [reflexivity|].
  split; [|split; [apply lex_anti|apply lex_trans]]. split.
  - intros H. apply lex_eq in H. apply flat_inj in H; auto; [apply Ra|apply Rb].
  - intros ->. apply lex_refl.
Qed.
Example C56_ex : exists a b d, sa_run (fun _ => 5) (sa_init, sa_init) [SaAppend true (zs "b"); SaAppend true (zs "a")] = Some (a, d) /\
  sa_run (fun _ => 6) (sa_init, sa_init) [SaAppend true (zs "b")] = Some (b, d) /\ sa_cmp a b = Some 1.
Proof. do 3 eexists. split; [vm_compute; reflexivity|]. split; [vm_compute; reflexivity|reflexivity]. Qed.

(** C57: prefix test *)
Theorem C57_startswith s p : startswith s p = true <-> exists r, s = p ++ r.
Proof.
  unfold startswith. rewrite str_eqb_eq. split.
  - intros E. exists (skipn (length p) s). rewrite <- E at 1. now rewrite firstn_skipn.
  - intros (r & ->). rewrite firstn_app, firstn_all, Nat.sub_diag. cbn. apply app_nil_r.
Qed.
(** C57 (partial): suffix test, for patterns that are shorter than the string.
    Missing: the string itself as pattern. *)
Theorem C57_endswith_partial s p : zlen p < zlen s -> endswith s p = true <-> exists r, s = r ++ p.
Proof.
  intros L. unfold endswith. rewrite Z.gtb_ltb. destruct (Z.ltb_spec (zlen p) (zlen s)); [|lia]. cbn [andb]. rewrite str_eqb_eq. split.
  - intros E. exists (firstn (length s - length p) s). rewrite <- E at 2. now rewrite firstn_skipn.
  - intros (r & ->). rewrite app_length. replace (length r + length p - length p)%nat with (length r) by lia.
    now rewrite skipn_app, skipn_all, Nat.sub_diag.
Qed.
Theorem C57_endswith_refuted : exists s, (exists r, s = r ++ s) /\ endswith s s = false.
Proof. exists (zs "abc"). split; [exists []; reflexivity|reflexivity]. Qed.
Example C57_ex : endswith (zs "abc") (zs "bc") = true /\ startswith (zs "abc") (zs "ab") = true /\ startswith (zs "abc") (zs "abcd") = false.
Proof. repeat split. Qed.

Print Assumptions C28_strscpy.
Print Assumptions C28_strscat.
Print Assumptions C28_nothing_written.
Print Assumptions C29_round_trip.
Print Assumptions C29_only_hex_accepted.
Print Assumptions C30_array_is_sequence.
Print Assumptions C30_next_safe_refuted.
Print Assumptions C31_words_exist_unique.
Print Assumptions C31_cpynextword.
Print Assumptions C31_skipnextword.
Print Assumptions C31_countwords.
Print Assumptions C31_hasnextword.
Print Assumptions C31_trim.
Print Assumptions C31_cpynextword_length_zero_refuted.
Print Assumptions C56_strarray_cmp.
Print Assumptions C57_startswith.
Print Assumptions C57_endswith_partial.
Print Assumptions C57_endswith_refuted.
