(** Proofs about HTTP requests: no access outside of the memory. *)
From Verif Require Import Base BitsModel StrBase BufLemmas SplitLemmas NetaddrModel CompModel StringModel StringSpec StringProofs StringProps HttpModel HttpSpec HttpProofs.

Definition le_pos (o : option Z) (pos : Z) : Prop := match o with None => True | Some p => 0 <= p <= pos end.
Lemma le_pos_mono o a b : le_pos o a -> a <= b -> le_pos o b.
Proof. destruct o; cbn; lia. Qed.
Lemma req_line_safe x : forall pos u v, 0 <= pos -> le_pos u pos -> le_pos v pos ->
  match req_line (x ++ [0]) pos (zlen x) u v with
  | LFault => False
  | LErr => True
  | LOk w r pos' len' u' v' => exists x', r = x' ++ [0] /\ len' = zlen x' /\ 1 <= zlen x' /\ pos' = pos + zlen w /\ zlen w + zlen x' = zlen x /\ le_pos u' pos' /\ le_pos v' pos'
  end.
Proof.
  induction x as [|c x IH]; intros pos u v P U V; [exact Logic.I|]. cbn [app req_line]. rewrite zlen_cons. pose proof (zlen_nonneg x). destruct (Z.ltb_spec (zlen x + 1) 2); [exact Logic.I|].
  replace (zlen x + 1 - 1) with (zlen x) by lia.
  assert (forall b u v, le_pos u (pos + 1) -> le_pos v (pos + 1) ->
    match lpush [b] (req_line (x ++ [0]) (pos + 1) (zlen x) u v) with
    | LFault => False
    | LErr => True
    | LOk w r pos' len' u' v' => exists x', r = x' ++ [0] /\ len' = zlen x' /\ 1 <= zlen x' /\ pos' = pos + zlen w /\ zlen w + zlen x' = zlen x + 1 /\ le_pos u' pos' /\ le_pos v' pos'
    end) as H1.
  { intros b u0 v0 U0 V0. specialize (IH (pos + 1) u0 v0). destruct (req_line (x ++ [0]) (pos + 1) (zlen x) u0 v0); cbn [lpush]; [apply IH; auto; lia|exact Logic.I|].
    destruct IH as (x' & A1 & A2 & A3 & A4 & A5 & A6 & A7); [lia|auto|auto|]. exists x'. rewrite zlen_app. change (zlen [b]) with 1. repeat split; auto; lia. }
  destruct ((c =? 32) && match v with None => true | _ => false end).
  - destruct u; apply H1; try (eapply le_pos_mono; eauto; lia); cbn; lia.
  - destruct (c =? 13); [apply H1; eapply le_pos_mono; eauto; lia|]. destruct (c =? 10).
    + exists x. change (zlen [0]) with 1. repeat split; auto; try lia; eapply le_pos_mono; eauto; lia.
    + apply H1; eapply le_pos_mono; eauto; lia.
Qed.
Lemma field_name_safe x : forall pos,
  match field_name (x ++ [0]) pos (zlen x) with
  | NFault => False
  | NErr => True
  | NOk w r pos' len' => exists x', r = x' ++ [0] /\ len' = zlen x' /\ pos' = pos + zlen w /\ zlen w + zlen x' = zlen x
  end.
Proof.
  induction x as [|c x IH]; intros pos; [exact Logic.I|]. cbn [app field_name]. rewrite zlen_cons. pose proof (zlen_nonneg x). destruct (Z.ltb_spec (zlen x + 1) 1); [exact Logic.I|].
  replace (zlen x + 1 - 1) with (zlen x) by lia.
  assert (forall b, match npush [b] (field_name (x ++ [0]) (pos + 1) (zlen x)) with
  | NFault => False
  | NErr => True
  | NOk w r pos' len' => exists x', r = x' ++ [0] /\ len' = zlen x' /\ pos' = pos + zlen w /\ zlen w + zlen x' = zlen x + 1
  end) as H1.
  { intros b. specialize (IH (pos + 1)). destruct (field_name (x ++ [0]) (pos + 1) (zlen x)); cbn [npush]; [exact IH|exact Logic.I|]. destruct IH as (x' & A1 & A2 & A3 & A4). exists x'. rewrite zlen_app. change (zlen [b]) with 1. repeat split; auto; lia. }
  destruct (c =? 58); [exists x; change (zlen [0]) with 1; repeat split; lia|]. destruct (_ || _); [apply H1|]. destruct (_ || _); [exact Logic.I|apply H1].
Qed.
Definition vsafe (x : bytes) (pos : Z) (r : vres) : Prop :=
  match r with
  | VFault => False
  | VErr => True
  | VOk w r pos' len' v => exists x', r = x' ++ [0] /\ len' = zlen x' /\ 1 <= zlen x' /\ pos' = pos + zlen w /\ zlen w + zlen x' = zlen x /\ 0 <= v <= pos'
  end.
Lemma vsafe_push b x y pos r : vsafe y (pos + zlen b) r -> zlen x = zlen b + zlen y -> vsafe x pos (vpush b r).
Proof. destruct r; cbn; auto. intros (x' & A1 & A2 & A3 & A4 & A5 & A6) E. exists x'. rewrite zlen_app. repeat split; auto; lia. Qed.
Lemma field_value_safe n : forall x pos value, (length x <= n)%nat -> 0 <= pos -> le_pos value pos -> vsafe x pos (field_value (x ++ [0]) pos (zlen x) value).
Proof.
  induction n as [|n IH]; intros x pos value L P V; [destruct x; [exact Logic.I|cbn in L; lia]|].
  destruct x as [|c x]; [exact Logic.I|]. cbn [length] in L. cbn [app field_value]. rewrite zlen_cons. pose proof (zlen_nonneg x). destruct (Z.ltb_spec (zlen x + 1) 1); [exact Logic.I|]. cbv zeta.
  set (value' := match value with None => if tabsp c then None else Some pos | _ => value end).
  assert (le_pos value' pos) as V' by (unfold value'; destruct value; auto; destruct (tabsp c); cbn; auto; lia).
  assert (0 <= match value' with None => pos | Some v => v end <= pos) as Vf by (destruct value'; cbn in V'; lia). clearbody value'.
  destruct (c =? 10).
  - destruct (Z.ltb_spec (zlen x + 1) 2); [exact Logic.I|]. destruct x as [|c1 x]; [change (zlen []) with 0 in *; lia|]. cbn [app]. rewrite zlen_cons in *. pose proof (zlen_nonneg x).
    destruct (tabsp c1).
    + apply (vsafe_push [32; 32] _ x); [|unfold zlen; cbn [length]; lia]. change (zlen [32; 32]) with 2. replace (zlen x + 1 + 1 - 2) with (zlen x) by lia. apply IH; [cbn in L; lia|lia|eapply le_pos_mono; eauto; lia].
    + exists (c1 :: x). change (zlen [0]) with 1. rewrite !zlen_cons. repeat split; auto; lia.
  - destruct (c =? 13).
    + destruct (Z.ltb_spec (zlen x + 1) 2); [exact Logic.I|]. destruct x as [|c1 x]; [change (zlen []) with 0 in *; lia|]. cbn [app]. rewrite zlen_cons in *. pose proof (zlen_nonneg x). cbn [length] in L.
      destruct (c1 =? 10).
      * destruct (Z.ltb_spec (zlen x + 1 + 1) 3); [exact Logic.I|]. destruct x as [|c2 x]; [change (zlen []) with 0 in *; lia|]. cbn [app]. rewrite zlen_cons in *. pose proof (zlen_nonneg x). cbn [length] in L.
        destruct (tabsp c2).
        -- apply (vsafe_push [32; 32; 32] _ x); [|unfold zlen; cbn [length]; lia]. change (zlen [32; 32; 32]) with 3. replace (zlen x + 1 + 1 + 1 - 3) with (zlen x) by lia. apply IH; [lia|lia|eapply le_pos_mono; eauto; lia].
        -- exists (c2 :: x). change (zlen [0; 10]) with 2. rewrite !zlen_cons. repeat split; auto; lia.
      * apply (vsafe_push [13] _ (c1 :: x)); [|unfold zlen; cbn [length]; lia]. change (zlen [13]) with 1. replace (zlen x + 1 + 1 - 1) with (zlen (c1 :: x)) by (rewrite zlen_cons; lia). apply (IH (c1 :: x)); [cbn; lia|lia|eapply le_pos_mono; eauto; lia].
    + apply (vsafe_push [c] _ x); [|unfold zlen; cbn [length]; lia]. change (zlen [c]) with 1. replace (zlen x + 1 - 1) with (zlen x) by lia. apply IH; [lia|lia|eapply le_pos_mono; eauto; lia].
Qed.
Lemma fields_safe n : forall x pos, 1 <= zlen x -> 0 <= pos ->
  match fields n (x ++ [0]) pos (zlen x) with
  | FFault => False
  | FErr => True
  | FOk w r l => exists x', r = x' ++ [0] /\ zlen w + zlen x' = zlen x /\ Forall (fun p => 0 <= fst p <= pos + zlen x /\ 0 <= snd p <= pos + zlen x) l
  end.
Proof.
  induction n as [|n IH]; intros x pos L P.
  - cbn [fields]. destruct x as [|c x]; [change (zlen []) with 0 in L; lia|]. cbn [app]. destruct (c =? 10); [exists (c :: x); split; [reflexivity|split; [reflexivity|constructor]]|]. destruct (c =? 13); [|exact Logic.I]. rewrite zlen_cons in *. destruct (Z.ltb_spec (zlen x + 1) 2); [exact Logic.I|].
    destruct x as [|c1 x]; [change (zlen []) with 0 in *; lia|]. cbn [app]. destruct (c1 =? 10); [exists (c :: c1 :: x); split; [reflexivity|split; [rewrite !zlen_cons; reflexivity|constructor]]|exact Logic.I].
  - assert (match (match field_name (x ++ [0]) pos (zlen x) with
      | NFault => FFault
      | NErr => FErr
      | NOk w1 rest1 pos1 len1 =>
        match field_value rest1 pos1 len1 None with
        | VFault => FFault
        | VErr => FErr
        | VOk w2 rest2 pos2 len2 v =>
          match fields n rest2 pos2 len2 with
          | FOk w rest' l => FOk (w1 ++ w2 ++ w) rest' ((pos, v) :: l)
          | r => r
          end
        end
      end) with
      | FFault => False
      | FErr => True
      | FOk w r l => exists x', r = x' ++ [0] /\ zlen w + zlen x' = zlen x /\ Forall (fun p => 0 <= fst p <= pos + zlen x /\ 0 <= snd p <= pos + zlen x) l
      end) as H1.
    { pose proof (field_name_safe x pos) as A. destruct (field_name (x ++ [0]) pos (zlen x)) as [| |w1 r1 p1 l1]; auto. destruct A as (x1 & -> & -> & -> & L1).
      pose proof (zlen_nonneg w1). pose proof (zlen_nonneg x1). pose proof (field_value_safe (length x1) x1 (pos + zlen w1) None (le_n _)) as B. specialize (B ltac:(lia) Logic.I).
      destruct (field_value (x1 ++ [0]) (pos + zlen w1) (zlen x1) None) as [| |w2 r2 p2 l2 v]; cbn [vsafe] in B; auto. destruct B as (x2 & -> & -> & L2 & -> & L3 & L4). pose proof (zlen_nonneg w2).
      specialize (IH x2 (pos + zlen w1 + zlen w2)). destruct (fields n (x2 ++ [0]) (pos + zlen w1 + zlen w2) (zlen x2)) as [| |w r l]; auto; [apply IH; lia|]. destruct IH as (x' & -> & L5 & F); [lia|lia|].
      exists x'. split; [reflexivity|]. rewrite !zlen_app. split; [lia|]. constructor; [cbn; pose proof (zlen_nonneg x); lia|]. eapply Forall_impl; [|exact F]. cbv beta. intros p. lia. }
    cbn [fields]. destruct x as [|c x]; [change (zlen []) with 0 in L; lia|]. cbn [app] in *. destruct (c =? 10); [exists (c :: x); split; [reflexivity|split; [reflexivity|constructor]]|]. destruct (c =? 13); [|exact H1]. destruct (Z.ltb_spec (zlen (c :: x)) 2) as [|L2]; [exact Logic.I|].
    destruct x as [|c1 x]; [change (zlen [c]) with 1 in *; lia|]. cbn [app] in *. destruct (c1 =? 10); [exists (c :: c1 :: x); split; [reflexivity|split; [rewrite !zlen_cons; reflexivity|constructor]]|exact H1].
Qed.
Lemma parse_safe inp :
  match parse_http_header inp with
  | HFault => False
  | HErr => True
  | HOk mem u v l => exists m, mem = m ++ [0] /\ zlen m = zlen inp /\ 0 <= u <= zlen m /\ 0 <= v <= zlen m /\ Forall (fun p => 0 <= fst p <= zlen m /\ 0 <= snd p <= zlen m) l
  end.
Proof.
  unfold parse_http_header. pose proof (req_line_safe inp 0 None None ltac:(lia) Logic.I Logic.I) as A.
  destruct (req_line (inp ++ [0]) 0 (zlen inp) None None) as [| |w r pos len u v]; auto. destruct A as (x & -> & -> & L1 & -> & L2 & U & V). destruct u as [u|]; [|exact Logic.I]. destruct v as [v|]; [|exact Logic.I]. cbn in U, V. pose proof (zlen_nonneg w).
  pose proof (fields_safe MAX_HEADERS x (0 + zlen w) L1 ltac:(lia)) as B. destruct (fields MAX_HEADERS (x ++ [0]) (0 + zlen w) (zlen x)) as [| |w' r l]; auto. destruct B as (x' & -> & L3 & F).
  exists (w ++ w' ++ x'). rewrite !zlen_app. split; [now rewrite <- !app_assoc|]. pose proof (zlen_nonneg x). split; [lia|]. split; [lia|]. split; [lia|]. eapply Forall_impl; [|exact F]. cbv beta. intros p. lia.
Qed.
Lemma strings_some m l : Forall (fun p => 0 <= fst p <= zlen m /\ 0 <= snd p <= zlen m) l -> exists fs, strings (m ++ [0]) l = Some fs.
Proof.
  intros F. induction F as [|(n, v) l (A & B) F (fs & IH)]; [exists []; reflexivity|]. cbn [strings]. destruct (cstr_at_some m n A) as (a & ->). destruct (cstr_at_some m v B) as (b & ->). rewrite IH. eauto.
Qed.

(** ** Parameters *)
Lemma query_total f s count : (length s < f)%nat -> exists m l, query f s count = Some (m, l) /\ zlen m = zlen s.
Proof.
  revert s count. induction f as [|f IH]; intros s count L; [lia|]. cbn [query]. destruct count as [|count]; [eauto|]. cbv zeta.
  pose proof (take_drop (fun c => negb (c =? 38)) s) as TD. set (seg := take_while _ s) in *. set (rest := drop_while _ s) in *.
  pose proof (take_drop (fun c => negb (c =? 61)) seg) as TD2. set (n := take_while _ seg) in *. set (v := drop_while _ seg) in *.
  assert (zlen (match v with [] => seg | _ :: v' => n ++ 0 :: v' end) = zlen seg) as Ls by (destruct v; [reflexivity|rewrite <- TD2, !zlen_app, !zlen_cons; reflexivity]).
  clearbody n v. destruct rest as [|c r] eqn:R.
  - eexists _, _. split; [reflexivity|]. rewrite Ls, <- TD, app_nil_r. reflexivity.
  - assert (length seg + S (length r) = length s)%nat as Lr by (rewrite <- TD, app_length; reflexivity).
    destruct (IH r (match n with [] => S count | _ => count end)) as (m & l & -> & Lm); [lia|]. eexists _, _. split; [reflexivity|]. rewrite zlen_app, zlen_cons, Ls, Lm, <- TD, zlen_app, zlen_cons. reflexivity.
Qed.
Lemma parse_query_total s : exists m l, parse_query s = Some (m, l) /\ zlen m = zlen s.
Proof. apply query_total. lia. Qed.

(** ** strstr *)
Lemma is_prefix_ok p s : is_prefix p s = true <-> exists r, s = p ++ r.
Proof.
  revert s. induction p as [|a p IH]; intros s; cbn [is_prefix]; [split; [exists s; reflexivity|reflexivity]|].
  destruct s as [|b s]; [split; [discriminate|intros (r & E); discriminate E]|]. rewrite andb_true_iff, Z.eqb_eq, IH. split; [intros (-> & r & ->); exists r; reflexivity|intros (r & E); injection E as -> ->; eauto].
Qed.
Lemma strstr_some s p : forall i j, strstr s p i = Some j -> exists a b, s = a ++ p ++ b /\ j = i + zlen a.
Proof.
  induction s as [|c s IH]; intros i j; cbn [strstr].
  - destruct (is_prefix p []) eqn:E; [|discriminate]. intros [= <-]. apply is_prefix_ok in E. destruct E as (r & E). exists [], r. split; [exact E|]. change (zlen []) with 0. lia.
  - destruct (is_prefix p (c :: s)) eqn:E.
    + intros [= <-]. apply is_prefix_ok in E. destruct E as (r & E). exists [], r. split; [exact E|]. change (zlen []) with 0. lia.
    + intros H. destruct (IH _ _ H) as (a & b & -> & ->). exists (c :: a), b. split; [reflexivity|]. rewrite zlen_cons. lia.
Qed.
Lemma strstr_none s p : forall i, strstr s p i = None -> forall a b, s <> a ++ p ++ b.
Proof.
  induction s as [|c s IH]; intros i; cbn [strstr]; destruct (is_prefix p _) eqn:E; try discriminate.
  - intros _ a b H. destruct a; [|discriminate]. assert (is_prefix p [] = true) by (apply is_prefix_ok; exists b; exact H). congruence.
  - intros H a b Hs. destruct a as [|x a]; [assert (is_prefix p (c :: s) = true) by (apply is_prefix_ok; exists b; exact Hs); congruence|]. cbn in Hs. injection Hs as _ Hs. exact (IH _ H a b Hs).
Qed.
Lemma header_end_bound s i : header_end s = Some i -> 0 <= i <= zlen s.
Proof.
  unfold header_end. destruct (strstr s END1 0) eqn:E.
  - intros [= <-]. apply strstr_some in E. destruct E as (a & b & -> & ->). rewrite !zlen_app. change (zlen END1) with 4. pose proof (zlen_nonneg a). pose proof (zlen_nonneg b). lia.
  - destruct (strstr s END2 0) eqn:E2; [|discriminate]. intros [= <-]. apply strstr_some in E2. destruct E2 as (a & b & -> & ->). rewrite !zlen_app. change (zlen END2) with 2. pose proof (zlen_nonneg a). pose proof (zlen_nonneg b). lia.
Qed.
Lemma text_len m : zlen (text (m ++ [0])) <= zlen m.
Proof. induction m as [|c m IH]; [cbn; unfold zlen; cbn; lia|]. cbn [app text]. pose proof (zlen_nonneg m). destruct (c =? 0); [change (zlen []) with 0; rewrite zlen_cons; lia|]. rewrite !zlen_cons. lia. Qed.

(** ** The memory of the URI *)
Definition uri_mem (m : bytes) : Prop := zlen m = 257 /\ exists m0, m = m0 ++ [0].
Lemma decode_len s : (length (decode s) <= length s)%nat.
Proof.
  assert (forall n s, (length s <= n)%nat -> (length (decode s) <= length s)%nat) as H; [|apply (H (length s)); lia].
  clear s. induction n as [|n IH]; intros s L; [destruct s; [cbn; lia|cbn in L; lia]|]. destruct s as [|c r]; [cbn; lia|]. cbn [length] in L. cbn [decode]. destruct r as [|a [|b r']]; [cbn; lia|cbn; lia|].
  destruct (c =? 37); cbn [length]; [specialize (IH r'); cbn [length] in L; lia|specialize (IH (a :: b :: r')); cbn [length] in *; lia].
Qed.
Lemma overlay_mem m s : uri_mem m -> zlen s <= 255 -> uri_mem (overlay m s) /\ exists r, overlay m s = s ++ 0 :: r.
Proof.
  intros (L & m0 & E) Ls. split; [|eexists; reflexivity]. unfold overlay. split.
  - rewrite zlen_app, zlen_cons. unfold zlen in *. rewrite skipn_length. lia.
  - exists (s ++ 0 :: skipn (S (length s)) m0). rewrite E. rewrite skipn_app. assert (zlen m0 = 256) as L0 by (rewrite E, zlen_app in L; change (zlen [0]) with 1 in L; lia).
    replace (S (length s) - length m0)%nat with 0%nat by (unfold zlen in *; lia). cbn [skipn]. rewrite <- app_assoc. reflexivity.
Qed.
Lemma strscpy_uri u : no_nul u -> zlen u < 256 -> exists m, strscpy (repeat 165 257) 0 (Some (u ++ [0])) 257 = Some m /\ uri_mem m.
Proof.
  intros N L. destruct (strscpy_split [] (repeat 165 257) [] (u ++ [0]) 257) as (t & z & Et & Lt & E); [reflexivity|lia|left; apply in_or_app; right; left; reflexivity|].
  cbn [app] in E. rewrite app_nil_r in E. change (zlen []) with 0 in E. rewrite E. eexists. split; [reflexivity|]. unfold strscpy in E. change (257 =? 0) with false in E. cbn iota in E.
  destruct (strncpy (repeat 165 257) 0 (u ++ [0]) (Z.to_nat (257 - 1))) as [d|] eqn:Ed; [|discriminate]. rewrite app_nil_r in E.
  pose proof (zset_len _ _ _ _ E) as Ld. assert (zlen (t ++ 0 :: z) = 257) as L1 by exact Lt. split; [rewrite app_nil_r; exact L1|].
  rewrite app_nil_r. destruct (zsplit (t ++ 0 :: z) 256) as (a & b & Eab & La & Lb); [lia|]. exists a. rewrite Eab. f_equal. destruct b as [|y [|y' b]]; rewrite ?zlen_cons in Lb; try (change (zlen []) with 0 in Lb; lia); [|pose proof (zlen_nonneg b); lia].
  assert (zget (t ++ 0 :: z) 256 = Some 0) as G. { pose proof (zget_zset _ _ _ 256 _ E) as G0. change (0 + 257 - 1) with 256 in G0. rewrite Z.eqb_refl in G0. exact G0. }
  rewrite Eab in G. rewrite (zget_split a [] y 256) in G by lia. congruence.
Qed.
Lemma mem_cstr m p : uri_mem m -> 0 <= p <= 256 -> exists s, cstr_at m p = Some s.
Proof. intros (L & m0 & ->) P. apply cstr_at_some. rewrite zlen_app in L. change (zlen [0]) with 1 in L. lia. Qed.
Definition okreply (sites : list handler) (o : outcome) : Prop :=
  match o with
  | Fault => False
  | Wait _ => True
  | Done (Call h m fs ps) => uri_mem m /\ In h sites /\ h_acl h = true /\ (h_auth h = [] \/ auth_okay h fs = true) /\ exists u, cstr_at m 0 = Some u /\ get_site_handler sites u = Some h
  | Done (Static h) => In h sites
  | Done (Error _) => True
  end.
Lemma get_site_in l u h : get_site_handler l u = Some h -> In h l.
Proof.
  unfold get_site_handler. assert (forall (f : handler -> bool) l h, find f l = Some h -> In h l) as Fi by (intros f l1 h1 E; apply find_some in E; tauto).
  destruct (site_eq l u) eqn:E1; [intros [= <-]; eapply Fi; eauto|]. destruct (site_le l u) as [h1|] eqn:E2.
  - destruct (directory h1 && _); [intros [= <-]; apply in_rev; eapply Fi; eauto|]. destruct (site_ge l u) eqn:E3; [|discriminate]. destruct (_ && _); [|discriminate]. intros [= <-]. eapply Fi; eauto.
  - destruct (site_ge l u) eqn:E3; [|discriminate]. destruct (_ && _); [|discriminate]. intros [= <-]. eapply Fi; eauto.
Qed.
Lemma answer_ok sites m fs ps : uri_mem m -> okreply sites (answer sites m fs ps) /\ forall i, answer sites m fs ps <> Wait i.
Proof.
  intros U. unfold answer. destruct (mem_cstr m 0 U ltac:(lia)) as (u & Eu). rewrite Eu. destruct (get_site_handler sites u) as [h|] eqn:G; [|split; [exact Logic.I|discriminate]]. pose proof (get_site_in _ _ _ G) as Gi.
  destruct (h_content h); [split; [exact Gi|discriminate]|]. destruct (h_acl h) eqn:A; cbn [negb]; [|split; [exact Logic.I|discriminate]].
  destruct (h_auth h) eqn:Au; cbn [negb andb]; [split; [cbn; eauto 10|discriminate]|]. destruct (auth_okay h fs) eqn:O; cbn [negb]; [split; [cbn; eauto 10|discriminate]|split; [exact Logic.I|discriminate]].
Qed.
Lemma process_ok sites inp m first method u fs : no_nul u -> zlen u < 256 -> 0 <= first <= zlen m ->
  okreply sites (process sites inp (m ++ [0]) first method u fs) /\ (str_eqb method (zs "POST") = false -> forall i, process sites inp (m ++ [0]) first method u fs <> Wait i).
Proof.
  intros N L Fi. unfold process. destruct (strscpy_uri u N L) as (um & -> & Um). cbv zeta. set (t := take_while (fun c => negb (c =? 35)) u).
  assert (zlen (decode t) <= 255) as Lt. { pose proof (decode_len t). pose proof (take_drop (fun c => negb (c =? 35)) u) as TD. fold t in TD. assert (zlen t <= zlen u) by (rewrite <- TD, zlen_app; pose proof (zlen_nonneg (drop_while (fun c => negb (c =? 35)) u)); lia). unfold zlen in *. lia. }
  destruct (overlay_mem um (decode t) Um Lt) as (Om & r & Or). set (d := overlay um (decode t)) in *. clearbody d.
  destruct (str_eqb method (zs "POST")).
  - split; [|discriminate]. destruct (lookup fs (zs "Content-Length")); [|exact Logic.I]. destruct (zlen inp <? _); [exact Logic.I|]. destruct (cstr_at_some m first Fi) as (body & ->). destruct (parse_query_total body) as (q & ps & -> & _). apply answer_ok, Om.
  - destruct (str_eqb method (zs "GET")); [|split; [exact Logic.I|discriminate]].
    destruct (mem_cstr d 0 Om ltac:(lia)) as (s & Es). rewrite Es. pose proof (take_drop (fun c => negb (c =? 63)) s) as TD. set (path := take_while _ s) in *. destruct (drop_while (fun c => negb (c =? 63)) s) as [|c q].
    + destruct (answer_ok sites d fs [] Om) as (A & B). split; auto.
    + destruct (parse_query_total q) as (q' & ps & -> & Lq).
      assert (uri_mem (path ++ 0 :: q' ++ skipn (length path + 1 + length q) d)) as U.
      { assert (d = s ++ 0 :: skipn (S (length s)) d) as Ed. { unfold cstr_at in Es. change (0 <=? 0) with true in Es. destruct (0 <=? zlen d); [|discriminate]. cbn [andb] in Es. change (skipn (Z.to_nat 0) d) with d in Es. revert Es. clear. revert s. induction d as [|c d IH]; intros s; [discriminate|]. cbn [upto0]. destruct (Z.eqb_spec c 0) as [->|]; [intros [= <-]; reflexivity|]. destruct (upto0 d) as [s'|]; [|discriminate]. intros [= <-]. cbn [app length skipn]. f_equal. apply IH. reflexivity. }
        assert (length path + 1 + length q = length s)%nat as Ls by (rewrite <- TD, app_length; cbn; lia). rewrite Ls.
        destruct Om as (Ld & m0 & Em). split.
        - rewrite zlen_app, zlen_cons, zlen_app, Lq. pose proof (f_equal (@length Z) Ed) as Le. rewrite app_length in Le. cbn [length] in Le. rewrite skipn_length in Le. unfold zlen in *. rewrite skipn_length. clear - Le Ls Ld. lia.
        - assert (skipn (length s) d = 0 :: skipn (S (length s)) d) as Sk by (rewrite Ed at 1; rewrite skipn_app, skipn_all, Nat.sub_diag; reflexivity).
          assert (length s <= length m0)%nat as Lm. { rewrite Em in Ed. apply (f_equal (@length Z)) in Ed. rewrite !app_length in Ed. cbn [length] in Ed. lia. }
          exists (path ++ 0 :: q' ++ skipn (length s) m0). rewrite Em, skipn_app. replace (length s - length m0)%nat with 0%nat by lia. cbn [skipn]. repeat (rewrite <- app_assoc; cbn [app]). reflexivity. }
      destruct (answer_ok sites _ fs ps U) as (A & B). split; auto.
Qed.
Lemma receive_ok sites inp : okreply sites (receive sites inp).
Proof.
  unfold receive. destruct (header_end (text (inp ++ [0]))) as [first|] eqn:H; [|exact Logic.I]. apply header_end_bound in H. pose proof (text_len inp).
  pose proof (parse_safe inp) as P. destruct (parse_http_header inp) as [| |mem u v l]; [destruct P|exact Logic.I|]. destruct P as (m & -> & Lm & U & V & F).
  pose proof (zlen_nonneg m). destruct (cstr_at_some m 0 ltac:(lia)) as (method & ->). destruct (cstr_at_some m u U) as (uri & Eu). rewrite Eu. destruct (cstr_at_some m v V) as (ver & ->). destruct (strings_some m l F) as (fs & ->).
  destruct (_ && _); [exact Logic.I|]. destruct (Z.leb_spec MAX_URI (zlen uri)) as [|L]; [exact Logic.I|]. apply process_ok; [eapply cstr_no_nul; eauto|unfold MAX_URI in L; lia|lia].
Qed.
