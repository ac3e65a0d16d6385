(** Proofs about HTTP: where the header of a request ends, and whole requests. *)
From Verif Require Import Base BitsModel StrBase BufLemmas SplitLemmas NetaddrModel CompModel StringModel StringSpec StringProofs StringProps HttpModel HttpSpec HttpProofs HttpProofs2 HttpProofs3 HttpProofs4.

Lemma strstr_first s p a b i j : s = a ++ p ++ b -> strstr s p i = Some j -> j <= i + zlen a.
Proof.
  revert s i. induction a as [|c a IH]; intros s i E.
  - assert (is_prefix p s = true) as P by (apply is_prefix_ok; exists b; exact E). destruct s; cbn [strstr]; rewrite P; intros [= <-]; change (zlen []) with 0; lia.
  - subst s. cbn [app strstr]. rewrite zlen_cons. pose proof (zlen_nonneg a). destruct (is_prefix p _); [intros [= <-]; lia|]. intros H1. specialize (IH _ _ eq_refl H1). lia.
Qed.
Lemma strstr_skip p c0 p' w s i : p = c0 :: p' -> Forall (fun c => c <> c0) w -> strstr (w ++ s) p i = strstr s p (i + zlen w).
Proof.
  intros -> F. revert i. induction F as [|c w N F IH]; intros i; [change (zlen []) with 0; rewrite Z.add_0_r; reflexivity|]. cbn [app strstr is_prefix]. destruct (Z.eqb_spec c0 c); [congruence|]. cbn [andb]. rewrite IH, zlen_cons. f_equal. lia.
Qed.
Definition lines (e : bytes) (ls : list bytes) : bytes := concat (map (fun l => l ++ e) ls).
Definition line (l : bytes) : Prop := l <> [] /\ free [10; 13] l.
Lemma Fields_lines e t fs : Fields e t fs -> exists ls, t = lines e ls /\ Forall line ls.
Proof.
  induction 1 as [|name bl value t fs Fn Fb Fv C F (ls & -> & IH)]; [exists []; split; [reflexivity|constructor]|].
  exists ((name ++ 58 :: bl ++ value) :: ls). split; [unfold lines; cbn [map concat]; repeat (rewrite <- app_assoc; cbn [app]); reflexivity|]. constructor; [|exact IH]. split; [destruct name; discriminate|].
  apply Forall_app. split; [eapply free_sub; [|exact Fn]; cbn; tauto|]. constructor; [cbn; lia|]. apply Forall_app. split; [|exact Fv]. eapply Forall_impl; [|exact Fb]. cbv beta. intros c Q. cbn. lia.
Qed.
Lemma Request_lines e t method uri version fs : Request e t method uri version fs -> exists ls, t = lines e ls ++ e /\ Forall line ls /\ ls <> [].
Proof.
  intros (_ & Fm & Fu & Fv & ft & F & ->). destruct (Fields_lines _ _ _ F) as (ls & -> & L). exists ((method ++ 32 :: uri ++ 32 :: version) :: ls). split; [unfold lines; cbn [map concat]; repeat (rewrite <- app_assoc; cbn [app]); reflexivity|]. split; [|discriminate]. constructor; [|exact L]. split; [destruct method; discriminate|].
  apply Forall_app. split; [eapply free_sub; [|exact Fm]; cbn; tauto|]. constructor; [cbn; lia|]. apply Forall_app. split; [eapply free_sub; [|exact Fu]; cbn; tauto|]. constructor; [cbn; lia|]. exact Fv.
Qed.
Lemma line_not l c : line l -> c = 10 \/ c = 13 -> Forall (fun x => x <> c) l.
Proof. intros (_ & F) C. eapply Forall_impl; [|exact F]. cbv beta. intros x (_ & N) ->. apply N. cbn. lia. Qed.
Lemma crlf_end ls r : Forall line ls -> ls <> [] -> forall i, strstr (lines CRLF ls ++ CRLF ++ r) END1 i = Some (i + zlen (lines CRLF ls) - 2).
Proof.
  intros F. induction F as [|l ls L F IH]; intros N i; [contradiction|]. unfold lines. cbn [map concat]. fold (lines CRLF ls). rewrite <- !app_assoc. rewrite (strstr_skip END1 13 [10; 13; 10]) by (reflexivity || (apply line_not; auto)).
  destruct ls as [|l2 ls].
  - rewrite !zlen_app. change (zlen CRLF) with 2. change (zlen (lines CRLF [])) with 0. change (lines CRLF [] ++ CRLF ++ r) with (CRLF ++ r). cbn [CRLF app strstr is_prefix END1]. change (13 =? 13) with true. change (10 =? 10) with true. cbn [andb]. f_equal. lia.
  - rewrite !zlen_app. change (zlen CRLF) with 2. pose proof (Forall_inv F) as (L2 & F2). destruct l2 as [|c l2]; [contradiction|]. apply Forall_inv in F2. cbn in F2.
    assert (exists y, lines CRLF ((c :: l2) :: ls) ++ CRLF ++ r = c :: y) as (y & Ey) by (eexists; reflexivity).
    assert (strstr (CRLF ++ lines CRLF ((c :: l2) :: ls) ++ CRLF ++ r) END1 (i + zlen l) = strstr (lines CRLF ((c :: l2) :: ls) ++ CRLF ++ r) END1 (i + zlen l + 1 + 1)) as ->.
    { rewrite Ey. cbn [CRLF app strstr is_prefix END1]. change (13 =? 13) with true. change (10 =? 10) with true. change (13 =? 10) with false. destruct (Z.eqb_spec 13 c); [lia|]. cbn [andb]. reflexivity. }
    rewrite IH by discriminate. f_equal. lia.
Qed.
Lemma crlf_no_end2 ls : Forall line ls -> forall i, strstr (lines CRLF ls ++ CRLF) END2 i = None.
Proof.
  intros F. induction F as [|l ls L F IH]; intros i; [reflexivity|]. unfold lines. cbn [map concat]. fold (lines CRLF ls). rewrite <- !app_assoc. rewrite (strstr_skip END2 10 [10]) by (reflexivity || (apply line_not; auto)).
  assert (exists c y, lines CRLF ls ++ CRLF = c :: y /\ c <> 10) as (c & y & Ey & Nc).
  { destruct ls as [|l2 ls]; [exists 13, [10]; split; [reflexivity|lia]|]. pose proof (Forall_inv F) as (L2 & F2). destruct l2 as [|c l2]; [contradiction|]. apply Forall_inv in F2. cbn in F2. eexists c, _. split; [reflexivity|lia]. }
  assert (strstr (CRLF ++ lines CRLF ls ++ CRLF) END2 (i + zlen l) = strstr (lines CRLF ls ++ CRLF) END2 (i + zlen l + 1 + 1)) as ->; [|apply IH].
  rewrite Ey. cbn [CRLF app strstr is_prefix END2]. change (10 =? 13) with false. change (10 =? 10) with true. destruct (Z.eqb_spec 10 c); [lia|]. cbn [andb]. reflexivity.
Qed.
Lemma lf_end ls r : Forall line ls -> ls <> [] -> forall i, strstr (lines LF ls ++ LF ++ r) END2 i = Some (i + zlen (lines LF ls) - 1).
Proof.
  intros F. induction F as [|l ls L F IH]; intros N i; [contradiction|]. unfold lines. cbn [map concat]. fold (lines LF ls). rewrite <- !app_assoc. rewrite (strstr_skip END2 10 [10]) by (reflexivity || (apply line_not; auto)).
  destruct ls as [|l2 ls].
  - rewrite !zlen_app. change (zlen LF) with 1. change (zlen (lines LF [])) with 0. change (lines LF [] ++ LF ++ r) with (LF ++ r). cbn [LF app strstr is_prefix END2]. change (10 =? 10) with true. cbn [andb]. f_equal. lia.
  - rewrite !zlen_app. change (zlen LF) with 1. pose proof (Forall_inv F) as (L2 & F2). destruct l2 as [|c l2]; [contradiction|]. apply Forall_inv in F2. cbn in F2.
    assert (exists y, lines LF ((c :: l2) :: ls) ++ LF ++ r = c :: y) as (y & Ey) by (eexists; reflexivity).
    assert (strstr (LF ++ lines LF ((c :: l2) :: ls) ++ LF ++ r) END2 (i + zlen l) = strstr (lines LF ((c :: l2) :: ls) ++ LF ++ r) END2 (i + zlen l + 1)) as ->.
    { rewrite Ey. cbn [LF app strstr is_prefix END2]. change (10 =? 10) with true. destruct (Z.eqb_spec 10 c); [lia|]. cbn [andb]. reflexivity. }
    rewrite IH by discriminate. f_equal. lia.
Qed.
Lemma lf_no_end1 ls : Forall line ls -> forall i, strstr (lines LF ls ++ LF) END1 i = None.
Proof.
  intros F i. assert (Forall (fun c => c <> 13) (lines LF ls ++ LF)) as N.
  { apply Forall_app. split; [|repeat constructor; lia]. induction F as [|l ls L F IH]; [constructor|]. unfold lines. cbn [map concat]. apply Forall_app. split; [|exact IH]. apply Forall_app. split; [apply line_not; auto|repeat constructor; lia]. }
  rewrite <- (app_nil_r (lines LF ls ++ LF)). rewrite (strstr_skip END1 13 [10; 13; 10]) by (reflexivity || exact N). reflexivity.
Qed.
Lemma Request_header e t method uri version fs : Request e t method uri version fs -> Header t.
Proof.
  intros R. pose proof R as (E & _). destruct (Request_lines _ _ _ _ _ _ R) as (ls & -> & F & N). destruct E as [-> | ->].
  - split.
    + pose proof (crlf_end ls [] F N 0) as S. rewrite app_nil_r in S. apply strstr_some in S. destruct S as (a & b & Es & L). rewrite Es. assert (b = []) as ->. { apply (f_equal zlen) in Es. rewrite !zlen_app in Es. change (zlen CRLF) with 2 in Es. change (zlen END1) with 4 in Es. destruct b; [reflexivity|]. rewrite zlen_cons in Es. pose proof (zlen_nonneg b). lia. } exists a. left. now rewrite app_nil_r.
    + intros a b Es Nb (p & [-> | ->]).
      * pose proof (crlf_end ls [] F N 0) as S. rewrite app_nil_r in S. rewrite Es, <- app_assoc in S. apply (strstr_first _ END1 p b) in S; [|reflexivity]. apply (f_equal zlen) in Es. rewrite !zlen_app in Es. change (zlen CRLF) with 2 in Es. change (zlen [13; 10; 13; 10]) with 4 in Es. destruct b; [contradiction|]. rewrite zlen_cons in Es. pose proof (zlen_nonneg b). lia.
      * pose proof (crlf_no_end2 ls F 0) as S. apply (strstr_none _ _ _ S p b). rewrite Es, <- app_assoc. reflexivity.
  - split.
    + pose proof (lf_end ls [] F N 0) as S. rewrite app_nil_r in S. apply strstr_some in S. destruct S as (a & b & Es & L). rewrite Es. assert (b = []) as ->. { apply (f_equal zlen) in Es. rewrite !zlen_app in Es. change (zlen LF) with 1 in Es. change (zlen END2) with 2 in Es. destruct b; [reflexivity|]. rewrite zlen_cons in Es. pose proof (zlen_nonneg b). lia. } exists a. right. now rewrite app_nil_r.
    + intros a b Es Nb (p & [-> | ->]).
      * pose proof (lf_no_end1 ls F 0) as S. apply (strstr_none _ _ _ S p b). rewrite Es, <- app_assoc. reflexivity.
      * pose proof (lf_end ls [] F N 0) as S. rewrite app_nil_r in S. rewrite Es, <- app_assoc in S. apply (strstr_first _ END2 p b) in S; [|reflexivity]. apply (f_equal zlen) in Es. rewrite !zlen_app in Es. change (zlen LF) with 1 in Es. change (zlen [10; 10]) with 2 in Es. destruct b; [contradiction|]. rewrite zlen_cons in Es. pose proof (zlen_nonneg b). lia.
Qed.
Lemma Request_no_nul e t method uri version fs : Request e t method uri version fs -> no_nul t.
Proof.
  intros R. pose proof R as (E & _). destruct (Request_lines _ _ _ _ _ _ R) as (ls & -> & F & _). assert (no_nul e) as Ne by (destruct E as [-> | ->]; repeat constructor; discriminate). apply Forall_app. split; [|exact Ne].
  clear R.   induction F as [|l ls (_ & L) F IH]; [constructor|]. unfold lines. cbn [map concat]. apply Forall_app. split; [|exact IH]. apply Forall_app. split; [exact (free_no_nul _ _ L)|exact Ne].
Qed.
(** the answer to a request *)
Lemma receive_request sites e t method uri version fs body : Request e t method uri version fs -> (length fs <= 16)%nat -> version = zs "HTTP/1.0" \/ version = zs "HTTP/1.1" -> zlen uri < 256 ->
  exists m first, header_end (text ((t ++ body) ++ [0])) = Some first /\ zlen m + zlen e = zlen t /\ receive sites (t ++ body) = process sites (t ++ body) (m ++ e ++ body ++ [0]) first method uri fs.
Proof.
  intros R Lf V Lu. pose proof (parse_ok e t method uri version fs body R) as P. apply Nat.leb_le in Lf. change 16%nat with MAX_HEADERS in Lf. rewrite Lf in P. destruct P as (m & u & v & l & P & Lm & P0 & P1 & P2 & P3).
  destruct (header_end_found t (text (body ++ [0]))) as (first & Hf); [apply (Request_header _ _ _ _ _ _ R)|]. assert (header_end (text ((t ++ body) ++ [0])) = Some first) as Hf' by (rewrite <- app_assoc, text_no_nul by exact (Request_no_nul _ _ _ _ _ _ R); exact Hf).
  exists m, first. split; [exact Hf'|]. split; [exact Lm|]. unfold receive. rewrite Hf', P, P0, P1, P2, P3. assert (negb (str_eqb version (zs "HTTP/1.0")) && negb (str_eqb version (zs "HTTP/1.1")) = false) as -> by (destruct V as [-> | ->]; reflexivity). unfold MAX_URI. destruct (Z.leb_spec 256 (zlen uri)); [lia|]. reflexivity.
Qed.
Lemma Params_no_nul q ps : Params q ps -> no_nul q.
Proof.
  assert (forall (x y : bytes) c, no_nul x -> c <> 0 -> no_nul y -> no_nul (x ++ c :: y)) as A by (intros x y c X C Y; apply Forall_app; split; [exact X|constructor; assumption]).
  induction 1 as [n v Nn Fn Fv|n v t ps Nn Fn Fv P IH]; apply A; eauto using free_no_nul; try lia. apply A; eauto using free_no_nul; lia.
Qed.
Lemma decoded_uri um u frag d : uri_mem um -> free [35] u -> (frag = [] \/ exists f, frag = 35 :: f) -> Encoded u d -> no_nul d -> zlen (u ++ frag) < 256 ->
  let m := overlay um (decode (take_while (fun c => negb (c =? 35)) (u ++ frag))) in uri_mem m /\ cstr_at m 0 = Some d /\ m = d ++ 0 :: skipn (S (length d)) um.
Proof.
  intros Um Fu Ff En Nd L m. assert (take_while (fun c => negb (c =? 35)) (u ++ frag) = u) as Tk by (destruct Ff as [-> |(f & ->)]; [rewrite app_nil_r; apply (take_free_all [35] 35 u Fu); left; reflexivity|apply (take_free [35] 35 u f Fu); left; reflexivity]).
  unfold m. rewrite Tk, (decode_ok _ _ En). assert (zlen d <= 255) as Ld. { pose proof (decode_len u) as Q. rewrite (decode_ok _ _ En) in Q. rewrite zlen_app in L. pose proof (zlen_nonneg frag). unfold zlen in *. lia. }
  split; [apply overlay_mem; assumption|]. split; [|reflexivity]. unfold overlay. apply (cstr_at_app [] d (skipn (S (length d)) um) 0); [reflexivity|exact Nd].
Qed.
Lemma uri_free e t method uri version fs : Request e t method uri version fs -> no_nul uri.
Proof. intros (_ & _ & F & _). exact (free_no_nul _ _ F). Qed.
Lemma get_plain sites e t uri version fs body u frag p : Request e t (zs "GET") uri version fs -> (length fs <= 16)%nat -> version = zs "HTTP/1.0" \/ version = zs "HTTP/1.1" -> zlen uri < 256 ->
  uri = u ++ frag -> free [35] u -> (frag = [] \/ exists f, frag = 35 :: f) -> Encoded u p -> free [63] p ->
  exists m, uri_mem m /\ cstr_at m 0 = Some p /\ receive sites (t ++ body) = answer sites m fs [].
Proof.
  intros R Lf V Lu -> Fu Ff En Fp. destruct (receive_request sites e t _ _ version fs body R Lf V Lu) as (m & first & _ & _ & ->). unfold process. destruct (strscpy_uri _ (uri_free _ _ _ _ _ _ R) Lu) as (um & -> & Um). cbv zeta.
  destruct (decoded_uri um u frag p Um Fu Ff En (free_no_nul _ _ Fp) Lu) as (M1 & M2 & _). set (mm := overlay um _) in *. clearbody mm.
  change (str_eqb (zs "GET") (zs "POST")) with false. change (str_eqb (zs "GET") (zs "GET")) with true. cbn iota. rewrite M2. destruct (take_free_all [63] 63 p Fp) as (_ & ->); [left; reflexivity|]. eauto.
Qed.
Lemma get_query sites e t uri version fs body u frag p q ps : Request e t (zs "GET") uri version fs -> (length fs <= 16)%nat -> version = zs "HTTP/1.0" \/ version = zs "HTTP/1.1" -> zlen uri < 256 ->
  uri = u ++ frag -> free [35] u -> (frag = [] \/ exists f, frag = 35 :: f) -> Encoded u (p ++ 63 :: q) -> free [63] p -> Params q ps ->
  exists m, cstr_at m 0 = Some p /\ receive sites (t ++ body) = answer sites m fs (firstn 8 ps).
Proof.
  intros R Lf V Lu -> Fu Ff En Fp Pq. destruct (receive_request sites e t _ _ version fs body R Lf V Lu) as (m & first & _ & _ & ->). unfold process. destruct (strscpy_uri _ (uri_free _ _ _ _ _ _ R) Lu) as (um & -> & Um). cbv zeta.
  assert (no_nul (p ++ 63 :: q)) as Nd by (apply Forall_app; split; [exact (free_no_nul _ _ Fp)|constructor; [lia|exact (Params_no_nul _ _ Pq)]]).
  destruct (decoded_uri um u frag _ Um Fu Ff En Nd Lu) as (M1 & M2 & _). set (mm := overlay um _) in *. clearbody mm.
  change (str_eqb (zs "GET") (zs "POST")) with false. change (str_eqb (zs "GET") (zs "GET")) with true. cbn iota. rewrite M2. destruct (take_free [63] 63 p q Fp) as (-> & ->); [left; reflexivity|]. unfold parse_query. destruct (query_ok _ _ Pq (S (length q)) MAX_PARAMS) as (q' & ->); [lia|].
  eexists. split; [|reflexivity]. apply (cstr_at_app [] p _ 0); [reflexivity|exact (free_no_nul _ _ Fp)].
Qed.
Lemma post_whole sites t uri version fs body u frag p cl ps : Request CRLF t (zs "POST") uri version fs -> (length fs <= 16)%nat -> version = zs "HTTP/1.0" \/ version = zs "HTTP/1.1" -> zlen uri < 256 ->
  uri = u ++ frag -> free [35] u -> (frag = [] \/ exists f, frag = 35 :: f) -> Encoded u p -> free [] p -> lookup fs (zs "Content-Length") = Some cl -> fst (strtoul10 cl) = zlen body -> Params body ps ->
  exists m, cstr_at m 0 = Some p /\ receive sites (t ++ body) = answer sites m fs (firstn 8 ps).
Proof.
  intros R Lf V Lu -> Fu Ff En Fp Lk Lb Pq. destruct (receive_request sites CRLF t _ _ version fs body R Lf V Lu) as (m & first & Hf & Lm & ->). unfold process. destruct (strscpy_uri _ (uri_free _ _ _ _ _ _ R) Lu) as (um & -> & Um). cbv zeta.
  destruct (decoded_uri um u frag _ Um Fu Ff En (free_no_nul _ _ Fp) Lu) as (M1 & M2 & _). set (mm := overlay um _) in *. clearbody mm.
  change (str_eqb (zs "POST") (zs "POST")) with true. cbn iota. rewrite Lk, Lb, zlen_app. pose proof (zlen_nonneg t). destruct (Z.ltb_spec (zlen t + zlen body) (zlen body)); [lia|].
  assert (first = zlen (m ++ CRLF)) as ->.
  { destruct (Request_lines _ _ _ _ _ _ R) as (ls & Et & F & N). rewrite <- app_assoc, text_no_nul in Hf by exact (Request_no_nul _ _ _ _ _ _ R). unfold header_end in Hf. rewrite Et, <- app_assoc, (crlf_end ls _ F N 0) in Hf. injection Hf as <-. rewrite zlen_app, Lm, Et, zlen_app. change (zlen CRLF) with 2. lia. }
  replace (m ++ CRLF ++ body ++ [0]) with ((m ++ CRLF) ++ body ++ 0 :: []) by (now rewrite <- app_assoc). rewrite (cstr_at_app (m ++ CRLF) body [] _ eq_refl (Params_no_nul _ _ Pq)).
  unfold parse_query. destruct (query_ok _ _ Pq (S (length body)) MAX_PARAMS) as (q' & ->); [lia|]. exists mm. split; [exact M2|reflexivity].
Qed.
