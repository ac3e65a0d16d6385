(** Proofs about string.c. *)
From Verif Require Import Base BitsModel StrBase BufLemmas SplitLemmas NetaddrModel StringModel StringSpec.

(** * Bounded copies *)
Lemma text_length m : (length (text m) <= length m)%nat.
Proof. induction m as [|c m IH]; cbn; auto. destruct (c =? 0); cbn; lia. Qed.
Lemma text_no_nul m : no_nul (text m).
Proof. induction m as [|c m IH]; cbn; [constructor|]. destruct (Z.eqb_spec c 0); constructor; auto. Qed.
Lemma text_app s r : no_nul s -> text (s ++ 0 :: r) = s.
Proof. induction 1 as [|c s Hc Hs IH]; cbn; auto. destruct (Z.eqb_spec c 0); [easy|]. now rewrite IH. Qed.
Lemma strlen_from_text m : In 0 m -> strlen_from m = Some (zlen (text m)).
Proof.
  induction m as [|c m IH]; [easy|]. cbn. destruct (Z.eqb_spec c 0); [reflexivity|].
  intros [H|H]; [easy|]. rewrite IH by auto. now rewrite zlen_cons.
Qed.
Lemma strlen_split a s c i : i = zlen a -> no_nul s -> strlen (a ++ s ++ 0 :: c) i = Some (zlen s).
Proof.
  intros -> H. unfold strlen. pose proof (zlen_nonneg a). destruct (Z.ltb_spec (zlen a) 0); [lia|].
  unfold zlen at 1. rewrite Nat2Z.id, skipn_app, skipn_all, Nat.sub_diag. cbn [skipn app].
  rewrite strlen_from_text, text_app by (auto; apply in_or_app; right; left; reflexivity). reflexivity.
Qed.


Lemma strncpy_split : forall n src pre body post, length body = n -> readable src (Z.of_nat n) ->
  strncpy (pre ++ body ++ post) (zlen pre) src n =
    let t := firstn n (text src) in Some (pre ++ (t ++ repeat 0 (n - length t)) ++ post).
Proof.
  induction n as [|n IH]; intros src pre body post L R; cbn zeta.
  - destruct body; [|discriminate]. destruct src; reflexivity.
  - destruct src as [|c src].
    { destruct R as [[]|R]. rewrite zlen_nil in R. lia. }
    cbn [strncpy text]. destruct (Z.eqb_spec c 0) as [->|Hc].
    + rewrite firstn_nil. rewrite (copy_in_split (repeat 0 (S n)) pre body post); auto.
      unfold zlen. rewrite repeat_length. lia.
    + destruct body as [|x body]; [discriminate|]. injection L as L. cbn [app].
      rewrite (zset_split pre (body ++ post) x c _ eq_refl).
      replace (pre ++ c :: body ++ post) with ((pre ++ [c]) ++ body ++ post) by (now rewrite <- app_assoc).
      replace (zlen pre + 1) with (zlen (pre ++ [c])) by (rewrite zlen_app; reflexivity).
      rewrite IH; auto.
      * cbn [firstn length Nat.sub app]. rewrite <- !app_assoc. reflexivity.
      * destruct R as [[R|R]|R]; [easy|now left|right]. rewrite zlen_cons in R. lia.
Qed.

Lemma strscpy_split pre body post src size : zlen body = size -> 1 <= size -> readable src (size - 1) ->
  exists t z, t = firstn (Z.to_nat (size - 1)) (text src) /\ zlen (t ++ 0 :: z) = size /\
    strscpy (pre ++ body ++ post) (zlen pre) (Some src) size = Some (pre ++ (t ++ 0 :: z) ++ post).
Proof.
  intros L H R. unfold strscpy. destruct (Z.eqb_spec size 0); [lia|].
  destruct (zsplit body (size - 1)) as (b1 & b2 & -> & L1 & L2); [lia|].
  destruct b2 as [|x b2]; [rewrite zlen_nil in L2; lia|]. rewrite zlen_cons in L2. assert (b2 = []) as -> by (apply zlen_zero; lia).
  assert (length b1 = Z.to_nat (size - 1)) as L3 by (unfold zlen in L1; lia).
  replace (pre ++ (b1 ++ [x]) ++ post) with (pre ++ b1 ++ ([x] ++ post)) by (now rewrite <- !app_assoc).
  rewrite strncpy_split; [|auto|rewrite Z2Nat.id by lia; exact R]. cbn zeta. cbn [app].
  set (t := firstn (Z.to_nat (size - 1)) (text src)).
  assert (length t <= Z.to_nat (size - 1))%nat as LT by (unfold t; rewrite firstn_length; lia).
  set (z := repeat 0 (Z.to_nat (size - 1) - length t)).
  rewrite app_assoc. rewrite zset_split.
  - exists t. assert (exists z', t ++ 0 :: z' = (t ++ z) ++ [0]) as (z' & Ez).
    { rewrite <- app_assoc. unfold z. destruct (Z.to_nat (size - 1) - length t)%nat as [|k]; [exists []; reflexivity|].
      exists (repeat 0 k ++ [0]). reflexivity. }
    exists z'. split; [reflexivity|]. rewrite Ez. split.
    + unfold z. rewrite !zlen_app, zlen_repeat, zlen_cons, zlen_nil. unfold zlen. lia.
    + now rewrite <- !app_assoc.
  - unfold z. rewrite !zlen_app, zlen_repeat. unfold zlen. lia.
Qed.

(** * Words *)
Lemma drop_while_cut f s : exists a, s = a ++ drop_while f s /\ Forall (fun c => f c = true) a.
Proof.
  exists (take_while f s). rewrite take_drop. split; auto. apply Forall_forall. intros c Hc.
  pose proof (take_while_all f s) as T. rewrite forallb_forall in T. auto.
Qed.
Definition word1 (s : bytes) : bytes := take_while (fun c => negb (isblank c)) (drop_while isblank s).
Definition behind1 (s : bytes) : bytes := drop_while (fun c => negb (isblank c)) (drop_while isblank s).

Lemma Forall_forallb f (l : bytes) : Forall (fun c => f c = true) l <-> forallb f l = true.
Proof. rewrite forallb_forall, Forall_forall. tauto. Qed.

Lemma word1_cons b w r : Forall (fun c => isblank c = true) b -> w <> [] -> Forall (fun c => isblank c = false) w ->
  (forall c r', r = c :: r' -> isblank c = true) -> word1 (b ++ w ++ r) = w /\ behind1 (b ++ w ++ r) = r.
Proof.
  intros Hb Nw Hw Hr. unfold word1, behind1. rewrite drop_while_app_all by now apply Forall_forallb.
  rewrite (drop_while_none isblank (w ++ r)).
  2:{ intros c r' E. destruct w as [|x w]; [easy|]. injection E as <- _. now inversion Hw. }
  assert (forallb (fun c => negb (isblank c)) w = true) as Hw'.
  { apply Forall_forallb. eapply Forall_impl; [|exact Hw]. cbn. intros c ->. reflexivity. }
  rewrite take_while_app_all, drop_while_app_all by auto.
  rewrite take_while_none, drop_while_none; [now rewrite app_nil_r| |]; intros c r' E; now rewrite (Hr c r' E).
Qed.
Lemma word1_nil b : Forall (fun c => isblank c = true) b -> drop_while isblank b = [].
Proof. intros H. rewrite <- (app_nil_r b). rewrite drop_while_app_all by now apply Forall_forallb. reflexivity. Qed.

Lemma Words_fun s ws : Words s ws -> forall ws', Words s ws' -> ws = ws'.
Proof.
  induction 1 as [b Hb|b w r ws Hb Nw Hw Hr W IH]; intros ws' W'.
  - inversion W' as [|b' w r ws2 Hb' Nw' Hw' Hr' W2 E1 E2]; auto. subst.
    apply word1_nil in Hb. rewrite drop_while_app_all in Hb by now apply Forall_forallb.
    destruct w as [|c w]; [easy|]. cbn in Hb. inversion Hw' as [|? ? Hc _]. rewrite Hc in Hb. discriminate.
  - inversion W' as [b' Hb' E1 E2|b' w' r' ws2 Hb' Nw' Hw' Hr' W2 E1 E2]; subst.
    + apply word1_nil in Hb'. rewrite drop_while_app_all in Hb' by now apply Forall_forallb.
      destruct w as [|c w]; [easy|]. cbn in Hb'. inversion Hw as [|? ? Hc _]. rewrite Hc in Hb'. discriminate.
    + destruct (word1_cons b w r Hb Nw Hw Hr) as [A1 A2]. destruct (word1_cons b' w' r' Hb' Nw' Hw' Hr') as [B1 B2].
      rewrite E1 in B1, B2. rewrite A1 in B1. rewrite A2 in B2. subst. f_equal. auto.
Qed.
Lemma Words_blank b s ws : Forall (fun c => isblank c = true) b -> Words (b ++ s) ws <-> Words s ws.
Proof.
  intros Hb. split.
  - intros W. inversion W as [b' Hb' E1 E2|b' w r ws2 Hb' Nw Hw Hr W2 E1 E2]; subst.
    + constructor. now apply Forall_app in Hb'.
    + assert (exists b2, b' = b ++ b2) as (b2 & ->).
      { clear -E1 Hb Hw Nw. revert b' E1; induction Hb as [|c b Hc Hb IH]; intros b' E1; [now exists b'|].
        destruct b' as [|c' b']; cbn in E1.
        - destruct w as [|x w]; [easy|]. cbn in E1. injection E1 as -> E1. inversion Hw. congruence.
        - injection E1 as -> E1. destruct (IH b' E1) as (b2 & ->). now exists b2. }
      rewrite <- app_assoc in E1. apply app_inv_head in E1. subst. apply Forall_app in Hb' as [_ Hb2]. now constructor.
  - intros W. inversion W as [b' Hb' E1 E2|b' w r ws2 Hb' Nw Hw Hr W2 E1 E2]; subst.
    + constructor. apply Forall_app; auto.
    + rewrite app_assoc. constructor; auto. apply Forall_app; auto.
Qed.
Lemma Words_next s w ws : Words s (w :: ws) <-> word1 s = w /\ w <> [] /\ Words (behind1 s) ws.
Proof.
  split.
  - intros W. inversion W as [|b' w' r ws2 Hb' Nw Hw Hr W2 E1 E2]; subst.
    destruct (word1_cons b' w r Hb' Nw Hw Hr) as [A1 A2]. rewrite A1, A2. auto.
  - intros (<- & N & W). destruct (drop_while_cut isblank s) as (b & E & Hb).
    pose proof (take_drop (fun c => negb (isblank c)) (drop_while isblank s)) as T.
    assert (s = b ++ word1 s ++ behind1 s) as E2 by (unfold word1, behind1; rewrite T; exact E).
    rewrite E2 at 1. apply Words_cons; auto.
    + apply Forall_forall. intros c Hc. pose proof (take_while_all (fun c => negb (isblank c)) (drop_while isblank s)) as A.
      rewrite forallb_forall in A. specialize (A c Hc). now destruct (isblank c).
    + intros c r' Er. apply drop_while_head in Er. now destruct (isblank c).
Qed.
Lemma word1_empty s : word1 s = [] <-> drop_while isblank s = [].
Proof.
  unfold word1. split; [|now intros ->]. destruct (drop_while isblank s) as [|c r] eqn:E; auto.
  apply drop_while_head in E. cbn. rewrite E. discriminate.
Qed.
Lemma Words_none s : drop_while isblank s = [] <-> Words s [].
Proof.
  split; intros H.
  - destruct (drop_while_cut isblank s) as (b & E & Hb). rewrite H, app_nil_r in E. subst. now constructor.
  - inversion H. now apply word1_nil.
Qed.
Lemma drop_shorter f s : (length (drop_while f s) <= length s)%nat.
Proof. induction s as [|c s IH]; cbn; auto. destruct (f c); cbn; lia. Qed.
Lemma behind1_shorter s : word1 s <> [] -> (length (behind1 s) < length s)%nat.
Proof.
  intros N. unfold behind1, word1 in *. pose proof (drop_shorter isblank s).
  destruct (drop_while isblank s) as [|c r] eqn:E; [easy|]. pose proof (drop_while_head _ _ _ _ E) as Hc.
  cbn. rewrite Hc. cbn. cbn in H. pose proof (drop_shorter (fun c => negb (isblank c)) r). lia.
Qed.
Lemma Words_exist s : exists ws, Words s ws.
Proof.
  assert (forall n s, (length s < n)%nat -> exists ws, Words s ws) as G.
  { induction n as [|n IH]; intros x L; [lia|]. destruct (word1 x) as [|c w] eqn:E.
    - exists []. apply Words_none. now apply word1_empty.
    - destruct (IH (behind1 x)) as (ws & W); [pose proof (behind1_shorter x); rewrite E in *; lia || (specialize (H ltac:(discriminate)); lia)|].
      exists (word1 x :: ws). apply Words_next. rewrite E. split; auto. split; [discriminate|auto]. }
  apply (G (S (length s))). lia.
Qed.

Lemma next_or_null_words s ws : Words s ws ->
  match next_or_null s with None => ws = [] | Some r => ws <> [] /\ Words r ws end.
Proof.
  intros W. unfold next_or_null. destruct (drop_while_cut isblank s) as (b & E & Hb).
  rewrite E in W. apply Words_blank in W; auto. destruct (drop_while isblank s) as [|c r] eqn:D.
  - inversion W as [|b' w r ws2 Hb' Nw Hw Hr W2 E1 E2]; auto. destruct b'; [|discriminate]. destruct w; [congruence|discriminate].
  - split; auto. intros ->. apply Words_none in W. cbn in W. rewrite (drop_while_head _ _ _ _ D) in W. discriminate.
Qed.

Lemma skip_words s ws : Words s ws ->
  match skipnextword (Some s) with None => (length ws <= 1)%nat | Some r => (2 <= length ws)%nat /\ Words r (tl ws) end.
Proof.
  intros W. cbn [skipnextword]. fold (behind1 s). destruct ws as [|w ws].
  - apply Words_none in W. unfold behind1. rewrite W. cbn. lia.
  - apply Words_next in W as (_ & _ & W). apply next_or_null_words in W. destruct (next_or_null (behind1 s)) as [r|].
    + destruct W as [N W]. split; auto. destruct ws; [easy|cbn; lia].
    + subst. cbn. lia.
Qed.

Lemma count_loop_words : forall fuel s ws n, Words s ws -> (length ws <= fuel)%nat ->
  (forall c r, s = c :: r -> isblank c = false) -> count_loop fuel (Some s) n = Some (n + zlen ws).
Proof.
  induction fuel as [|fuel IH]; intros s ws n W L Hs.
  - destruct ws; [|cbn in L; lia]. apply Words_none in W. rewrite drop_while_none in W by auto. subst. cbn. now rewrite Z.add_0_r.
  - destruct s as [|c s].
    + assert (ws = []) as -> by (eapply Words_fun; [exact W|]; repeat constructor). cbn. now rewrite Z.add_0_r.
    + cbn [count_loop]. pose proof (skip_words _ _ W) as SK. destruct ws as [|w ws].
      { apply Words_none in W. rewrite drop_while_none in W by auto. discriminate. }
      destruct (skipnextword (Some (c :: s))) as [r|] eqn:E.
      * destruct SK as [L2 W2]. cbn [tl] in W2. rewrite (IH r ws); auto.
        -- f_equal. rewrite zlen_cons. lia.
        -- cbn in L. lia.
        -- intros c' r' ->. cbn [skipnextword] in E. unfold next_or_null in E.
           destruct (drop_while isblank _) eqn:D in E; [discriminate|]. injection E as -> ->. now apply drop_while_head in D.
      * destruct ws; [|cbn in SK; lia]. cbn. destruct fuel; reflexivity.
Qed.
Lemma Words_count s ws : Words s ws -> (length ws <= length s)%nat.
Proof.
  induction 1 as [|b w r ws Hb Nw Hw Hr W IH]; cbn; [lia|]. rewrite !app_length. destruct w; [easy|]. cbn. lia.
Qed.

Lemma copy_word_spec len dst : forall src done body rest, dst = done ++ body ++ rest ->
  1 <= len -> len < 18446744073709551616 -> zlen done + zlen body = len - 1 ->
  let w := take_while (fun c => negb (isblank c)) src in
  let k := Z.to_nat (len - 1 - zlen done) in
  exists junk, zlen done + zlen (firstn k w) + zlen junk = len - 1 /\
  copy_word dst (zlen done) src len =
    Some (done ++ firstn k w ++ junk ++ rest, zlen done + zlen (firstn k w), skipn (length (firstn k w)) src).
Proof.
  intros src. revert dst. induction src as [|c src IH]; intros dst done body rest -> H1 H2 HL; cbn zeta.
  - cbn [take_while copy_word]. rewrite firstn_nil. exists body. split; [rewrite zlen_nil; lia|].
    rewrite zlen_nil, Z.add_0_r. reflexivity.
  - cbn [take_while copy_word]. rewrite (u64_id (len - 1)) by (unfold is_u64; lia).
    destruct (isblank c) eqn:Bc; cbn [negb andb].
    + rewrite firstn_nil. exists body. rewrite zlen_nil, Z.add_0_r. split; [lia|]. reflexivity.
    + destruct (Z.ltb_spec (zlen done) (len - 1)).
      * destruct body as [|x body]; [rewrite zlen_nil in HL; lia|]. cbn [app]. rewrite (zset_split _ _ _ _ _ eq_refl).
        specialize (IH (done ++ c :: body ++ rest) (done ++ [c]) body rest). rewrite zlen_app, zlen_cons, zlen_nil in IH.
        rewrite zlen_cons in HL. destruct IH as (junk & J1 & J2); try lia; [now rewrite <- app_assoc|].
        replace (Z.to_nat (len - 1 - zlen done)) with (S (Z.to_nat (len - 1 - (zlen done + (0 + 1))))) by lia.
        exists junk. cbn [firstn length skipn]. rewrite zlen_cons. split; [lia|].
        change (0 + 1) with 1 in *. rewrite J2. f_equal. f_equal. f_equal; [now rewrite <- app_assoc|lia].
      * assert (len - 1 - zlen done <= 0) by lia. replace (Z.to_nat (len - 1 - zlen done)) with O by lia. cbn [firstn length skipn].
        assert (body = []) as -> by (apply zlen_zero; pose proof (zlen_nonneg body); lia).
        exists []. rewrite !zlen_nil in *. split; [lia|]. rewrite Z.add_0_r. reflexivity.
Qed.

(** * str_trim *)
Lemma rtrim1_spec s : (forall c r, s = c :: r -> isspace c = false) -> trimmed s (rtrim1 s).
Proof.
  assert (forall s, exists b, s = rtrim1 s ++ b /\ Forall (fun c => isspace c = true) b) as G1.
  { induction s0 as [|c s0 (b & E & Hb)]; [exists []; auto|]. cbn [rtrim1].
    destruct (rtrim1 s0) as [|d [|e r]] eqn:R; cbn in E.
    - exists b. rewrite E. auto.
    - destruct (isspace d) eqn:Hd; [exists (d :: b)|exists b]; cbn; rewrite E; auto.
    - exists b. cbn. rewrite E. auto. }
  assert (forall s, forall r c, rtrim1 s = r ++ [c] -> r <> [] -> isspace c = false) as G2.
  { induction s0 as [|x s0 IH]; intros r c E N; cbn [rtrim1] in E; [destruct r; discriminate|].
    destruct (rtrim1 s0) as [|d [|e r']] eqn:R.
    - destruct r as [|y r]; [easy|]. destruct r; discriminate.
    - destruct (isspace d) eqn:Hd.
      + destruct r as [|y r]; [easy|]. destruct r; discriminate.
      + destruct r as [|y [|z r]]; [easy| |]; cbn in E; [injection E as <- <-; auto|]. injection E as _ _ E. destruct r; discriminate.
    - destruct r as [|y r]; [easy|]. cbn in E. injection E as -> E. destruct r as [|z r].
      + discriminate.
      + rewrite E in IH. now apply (IH (z :: r) c). }
  intros H. destruct (G1 s) as (b & E & Hb). exists [], b. cbn. split; auto. split; auto. split; auto.
  assert (s = [] -> rtrim1 s = []) as Z0 by now intros ->.
  assert (forall c r, rtrim1 s = c :: r -> isspace c = false) as H1.
  { intros c r Er. rewrite Er in E. cbn in E. now apply (H c (r ++ b)). }
  split; auto. intros r c Er. destruct r as [|y r]; [now apply (H1 c [])|]. now apply (G2 s _ _ Er).
Qed.
Lemma trim_spec s : trimmed s (str_trim s).
Proof.
  unfold str_trim. destruct (drop_while_cut isspace s) as (a & E & Ha).
  destruct (rtrim1_spec (drop_while isspace s)) as (a' & b & E' & Ha' & Hb & H1 & H2).
  { intros c r D. now apply drop_while_head in D. }
  exists (a ++ a'), b. split; [rewrite <- app_assoc, <- E'; exact E|]. split; [apply Forall_app; auto|auto].
Qed.
Lemma trimmed_fun s t t' : trimmed s t -> trimmed s t' -> t = t'.
Proof.
  intros (a & b & E & Ha & Hb & H1 & H2) (a' & b' & E' & Ha' & Hb' & H1' & H2').
  assert (forall x y : bytes, Forall (fun c => isspace c = true) x -> (forall c r, y = c :: r -> isspace c = false) ->
    drop_while isspace (x ++ y) = y) as D.
  { intros x y Hx Hy. rewrite drop_while_app_all by now apply Forall_forallb. now apply drop_while_none. }
  assert (forall (u v : bytes), Forall (fun c => isspace c = true) v -> (forall r c, u = r ++ [c] -> isspace c = false) ->
    rev (drop_while isspace (rev (u ++ v))) = u) as D'.
  { intros u v Hv Hu. rewrite rev_app_distr, D; [apply rev_involutive| |].
    - now apply Forall_rev.
    - intros c r Er. apply (Hu (rev r) c). rewrite <- (rev_involutive u), Er. reflexivity. }
  destruct t as [|c t].
  - destruct t' as [|c' t']; auto. exfalso. cbn in E. assert (Forall (fun c => isspace c = true) s) as F.
    { rewrite E. apply Forall_app; auto. }
    rewrite E' in F. apply Forall_app in F as [_ F]. inversion F. rewrite (H1' c' t' eq_refl) in *. discriminate.
  - destruct t' as [|c' t'].
    { exfalso. cbn in E'. assert (Forall (fun c => isspace c = true) s) as F by (rewrite E'; apply Forall_app; auto).
      rewrite E in F. apply Forall_app in F as [_ F]. inversion F. rewrite (H1 c t eq_refl) in *. discriminate. }
    assert (drop_while isspace s = (c :: t) ++ b) as X.
    { rewrite E. apply D; auto. intros c0 r Er. injection Er as <- _. eauto. }
    assert (drop_while isspace s = (c' :: t') ++ b') as X'.
    { rewrite E'. apply D; auto. intros c0 r Er. injection Er as <- _. eauto. }
    rewrite <- (D' (c :: t) b), <- (D' (c' :: t') b') by auto. now rewrite <- X, <- X'.
Qed.
