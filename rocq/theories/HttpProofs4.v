(** Proofs about HTTP: URIs, parameters, sites and files. *)
From Verif Require Import Base BitsModel StrBase BufLemmas SplitLemmas NetaddrModel CompModel StringModel StringSpec StringProofs StringProps HttpModel HttpSpec HttpProofs HttpProofs2 HttpProofs3.
From Coq Require Import Sorted.

(** ** URIs *)
Lemma hexdig_ok c v : hex_value c v -> hexdig c = Some v /\ 0 <= v <= 15 /\ isspace c = false /\ c <> 45 /\ c <> 43.
Proof.
  unfold hex_value, hexdig, isdigit, isspace. intros [(H & ->)|[(H & ->)|(H & ->)]].
  - destruct (Z.leb_spec 48 c); [|lia]. destruct (Z.leb_spec c 57); [|lia]. cbn [andb]. repeat split; try lia; f_equal; lia.
  - destruct (Z.leb_spec c 57); [lia|]. rewrite andb_false_r. destruct (Z.leb_spec 65 c); [|lia]. destruct (Z.leb_spec c 70); [|lia]. cbn [andb]. repeat split; try lia; f_equal; lia.
  - destruct (Z.leb_spec c 57); [lia|]. rewrite andb_false_r. destruct (Z.leb_spec c 70); [lia|]. rewrite andb_false_r. destruct (Z.leb_spec 97 c); [|lia]. destruct (Z.leb_spec c 102); [|lia]. cbn [andb]. repeat split; try lia; f_equal; lia.
Qed.
Lemma decode_plain c r : c <> 37 -> decode (c :: r) = c :: decode r.
Proof. intros N. cbn [decode]. destruct r as [|a [|b r']]; try reflexivity. rewrite (proj2 (Z.eqb_neq c 37) N). reflexivity. Qed.
Lemma decode_ok t s : Encoded t s -> decode t = s.
Proof.
  induction 1 as [|c t s N E IH|a b x y t s A B E IH]; [reflexivity|rewrite decode_plain by exact N; now rewrite IH|].
  destruct (hexdig_ok _ _ A) as (Ha & Hx & Sa & Na & Nb). destruct (hexdig_ok _ _ B) as (Hb & Hy & _).
  change (decode (37 :: a :: b :: t)) with (u8 (scan2 (a :: b :: t)) :: decode t). rewrite IH. f_equal. unfold scan2. rewrite drop_while_none by (intros c r Q; injection Q as <- _; exact Sa). cbv zeta. rewrite (proj2 (Z.eqb_neq a 45) Na), (proj2 (Z.eqb_neq a 43) Nb), Ha, Hb. unfold u8. rewrite Z.mod_small; [reflexivity|]. change (2 ^ 8) with 256. lia.
Qed.
Lemma take_free bad c w r : free bad w -> In c bad -> take_while (fun x => negb (x =? c)) (w ++ c :: r) = w /\ drop_while (fun x => negb (x =? c)) (w ++ c :: r) = c :: r.
Proof.
  intros F I0. assert (forallb (fun x => negb (x =? c)) w = true) as A. { apply forallb_forall. intros x Hx. pose proof (proj1 (Forall_forall _ _) F x Hx) as (_ & N). destruct (Z.eqb_spec x c) as [->|]; [contradiction|reflexivity]. }
  rewrite take_while_app_all, drop_while_app_all by exact A. cbn [take_while drop_while]. rewrite Z.eqb_refl. cbn [negb]. now rewrite app_nil_r.
Qed.
Lemma take_free_all bad c w : free bad w -> In c bad -> take_while (fun x => negb (x =? c)) w = w /\ drop_while (fun x => negb (x =? c)) w = [].
Proof.
  intros F I0. assert (forallb (fun x => negb (x =? c)) w = true) as A. { apply forallb_forall. intros x Hx. pose proof (proj1 (Forall_forall _ _) F x Hx) as (_ & N). destruct (Z.eqb_spec x c) as [->|]; [contradiction|reflexivity]. }
  rewrite <- (app_nil_r w), take_while_app_all, drop_while_app_all by exact A. cbn. now rewrite app_nil_r.
Qed.
Lemma free_sub a b w : (forall c, In c b -> In c a) -> free a w -> free b w.
Proof. intros S F. eapply Forall_impl; [|exact F]. cbv beta. intros c (H1 & H2). split; auto. Qed.
Lemma query_ok t ps : Params t ps -> forall fuel count, (length t < fuel)%nat -> exists m, query fuel t count = Some (m, firstn count ps).
Proof.
  induction 1 as [n v Nn Fn Fv|n v t ps Nn Fn Fv P IH]; intros fuel count L; (destruct fuel as [|fuel]; [lia|]); cbn [query]; (destruct count as [|count]; [eexists; reflexivity|]); cbv zeta.
  - assert (free [38] (n ++ 61 :: v)) as F. { apply Forall_app. split; [eapply free_sub; [|exact Fn]; cbn; tauto|]. constructor; [cbn; lia|exact Fv]. }
    destruct (take_free_all [38] 38 _ F) as (-> & ->); [left; reflexivity|]. destruct (take_free [38; 61] 61 n v Fn) as (-> & ->); [right; left; reflexivity|]. destruct n; [contradiction|]. eexists. cbn [firstn tl]. rewrite firstn_nil. reflexivity.
  - assert (free [38] (n ++ 61 :: v)) as F. { apply Forall_app. split; [eapply free_sub; [|exact Fn]; cbn; tauto|]. constructor; [cbn; lia|exact Fv]. }
    replace (n ++ 61 :: v ++ 38 :: t) with ((n ++ 61 :: v) ++ 38 :: t) in * by (rewrite <- app_assoc; reflexivity).
    destruct (take_free [38] 38 _ t F) as (-> & ->); [left; reflexivity|]. destruct (take_free [38; 61] 61 n v Fn) as (-> & ->); [right; left; reflexivity|]. destruct n as [|c n]; [contradiction|]. destruct (IH fuel count) as (m & ->); [rewrite app_length in L; cbn in L; lia|]. eexists. cbn [firstn tl app]. reflexivity.
Qed.

(** ** Sites *)
Lemma tolower_zero c : c <> 0 -> tolower c <> 0.
Proof. unfold tolower. destruct ((65 <=? c) && (c <=? 90)) eqn:E; [|auto]. apply andb_true_iff in E. rewrite !Z.leb_le in E. lia. Qed.
Lemma strcasecmp_eq a b : no_nul a -> no_nul b -> (strcasecmp a b = 0 <-> same_case a b).
Proof.
  intros Fa. revert b. induction Fa as [|x a X Fa IH]; intros b Fb; destruct Fb as [|y b Y Fb]; unfold same_case in *; cbn [strcasecmp map]; try tauto.
  - split; [|discriminate]. pose proof (tolower_zero y Y). lia.
  - split; [|discriminate]. pose proof (tolower_zero x X). lia.
  - destruct (Z.eqb_spec (tolower x) (tolower y)) as [E|N]; [rewrite IH by exact Fb; split; [intros ->; now rewrite E|intros Q; injection Q as _ Q; exact Q]|]. split; [lia|intros Q; injection Q as Q _; contradiction].
Qed.
Lemma positive_no_nul a : Forall (fun c => 0 < c) a -> no_nul a.
Proof. apply Forall_impl. lia. Qed.
Lemma strcasecmp_refl a : strcasecmp a a = 0.
Proof. induction a; cbn; [reflexivity|]. now rewrite Z.eqb_refl. Qed.
(** what lies between a text and its extension is an extension *)
Lemma between d : forall s x y, Forall (fun c => 0 < c) d -> Forall (fun c => 0 < c) s -> same_case d x -> strcasecmp d s <= 0 -> strcasecmp s (x ++ y) <= 0 -> exists x' y', s = x' ++ y' /\ same_case d x'.
Proof.
  induction d as [|c d IH]; intros s x y Fd Fs C L1 L2; [exists [], s; split; reflexivity|]. destruct x as [|c' x]; [discriminate|]. unfold same_case in C. cbn [map] in C. injection C as C1 C2.
  apply Forall_cons_iff in Fd. destruct Fd as (P & Fd). assert (0 < tolower c) by (unfold tolower; destruct (_ && _); lia).
  destruct s as [|e s]; [cbn [strcasecmp] in L1; lia|]. apply Forall_cons_iff in Fs. destruct Fs as (Pe & Fs). cbn [strcasecmp app] in L1, L2. rewrite C1 in *.
  destruct (Z.eqb_spec (tolower c') (tolower e)) as [E|N]; destruct (Z.eqb_spec (tolower e) (tolower c')) as [E'|N']; try lia.
  destruct (IH s x y Fd Fs C2 L1 L2) as (x' & y' & -> & C3). exists (e :: x'), y'. split; [reflexivity|]. unfold same_case. cbn [map]. rewrite C3. congruence.
Qed.
Lemma cmp_ext d x y : same_case d x -> Forall (fun c => 0 < c) y -> strcasecmp d (x ++ y) <= 0.
Proof.
  revert x. induction d as [|c d IH]; intros [|c' x] C Fy; try discriminate; cbn [app strcasecmp].
  - destruct y as [|e y]; [lia|]. apply Forall_inv in Fy. unfold tolower. destruct (_ && _); lia.
  - unfold same_case in C. cbn [map] in C. injection C as C1 C2. rewrite C1, Z.eqb_refl. apply IH; assumption.
Qed.
Lemma find_last {A} (f : A -> bool) l h : In h l -> f h = true -> exists a h' b, l = a ++ h' :: b /\ find f (rev l) = Some h' /\ (h' = h \/ In h a).
Proof.
  intros I0 F. induction l as [|x l IH] using rev_ind; [destruct I0|]. rewrite rev_app_distr. cbn [rev app find]. destruct (f x) eqn:E.
  - exists l, x, []. split; [reflexivity|]. split; [reflexivity|]. apply in_app_or in I0. destruct I0 as [I0|[I0|[]]]; auto.
  - apply in_app_or in I0. destruct I0 as [I0|[I0|[]]]; [|subst; congruence]. destruct (IH I0) as (a & h' & b & -> & F' & D). exists a, h', (b ++ [x]). split; [rewrite <- app_assoc; reflexivity|]. split; [exact F'|exact D].
Qed.
Lemma strcase_eqb_same a b : strcase_eqb a b = true <-> same_case a b.
Proof. unfold strcase_eqb, same_case. apply str_eqb_eq. Qed.
Lemma site_sound l uri h : Forall (fun h => no_nul (h_site h)) l -> no_nul uri -> get_site_handler l uri = Some h -> In h l /\ responsible h uri.
Proof.
  intros Fl Fu G. split; [eapply get_site_in; eauto|]. revert G. unfold get_site_handler. cbv zeta.
  destruct (site_eq l uri) as [h0|] eqn:E1.
  - intros [= <-]. apply find_some in E1. destruct E1 as (I0 & E). apply Z.eqb_eq in E. left. apply strcasecmp_eq; auto. exact (proj1 (Forall_forall _ _) Fl _ I0).
  - assert (forall h, site_ge l uri = Some h -> case_prefix (h_site h) uri (zlen uri) && match skipn (Z.to_nat (zlen uri)) (h_site h) with [c] => c =? 47 | _ => false end = true -> responsible h uri) as Ge.
    { intros h1 _ H. apply andb_true_iff in H. destruct H as (H1 & H2). right. right. apply strcase_eqb_same in H1. pose proof (firstn_skipn (Z.to_nat (zlen uri)) (h_site h1)) as Fs. destruct (skipn (Z.to_nat (zlen uri)) (h_site h1)) as [|c [|? ?]]; try discriminate. apply Z.eqb_eq in H2. subst c. exists (firstn (Z.to_nat (zlen uri)) (h_site h1)). split; [now rewrite Fs|]. rewrite (firstn_all2 uri) in H1 by (unfold zlen; lia). exact H1. }
    destruct (site_le l uri) as [h1|] eqn:E2.
    + destruct (directory h1 && case_prefix (h_site h1) uri (zlen (h_site h1))) eqn:D.
      * intros [= <-]. apply andb_true_iff in D. destruct D as (D1 & D2). right. left. unfold directory in D1. destruct (rev (h_site h1)) as [|c r] eqn:R; [discriminate|]. apply Z.eqb_eq in D1. subst c. assert (h_site h1 = rev r ++ [47]) as Hs by (rewrite <- (rev_involutive (h_site h1)), R; reflexivity).
        exists (rev r), (firstn (Z.to_nat (zlen (h_site h1))) uri), (skipn (Z.to_nat (zlen (h_site h1))) uri). split; [exact Hs|]. split; [symmetry; apply firstn_skipn|]. rewrite <- Hs. apply strcase_eqb_same in D2. rewrite (firstn_all2 (h_site h1)) in D2 by (unfold zlen; lia). exact D2.
      * destruct (site_ge l uri) as [h2|] eqn:E3; [|discriminate]. destruct (case_prefix (h_site h2) uri (zlen uri) && _) eqn:D2; [|discriminate]. intros [= <-]. apply Ge; [reflexivity|exact D2].
    + destruct (site_ge l uri) as [h2|] eqn:E3; [|discriminate]. destruct (case_prefix (h_site h2) uri (zlen uri) && _) eqn:D2; [|discriminate]. intros [= <-]. apply Ge; [reflexivity|exact D2].
Qed.
Definition sorted (l : list handler) : Prop := StronglySorted (fun a b => strcasecmp (h_site a) (h_site b) < 0) l.
Lemma sorted_after l a h h' b : sorted l -> l = a ++ h' :: b -> In h a -> strcasecmp (h_site h) (h_site h') < 0.
Proof.
  intros S. revert a. induction S as [|x l S IH F]; intros a E I0; [destruct a; discriminate|]. destruct a as [|y a]; [destruct I0|]. injection E as <- E. destruct I0 as [<- |I0]; [|eapply IH; eauto]. rewrite Forall_forall in F. apply F. rewrite E. apply in_or_app. right. left. reflexivity.
Qed.
Lemma site_directory l h x y : sorted l -> Forall (fun h => Forall (fun c => 0 < c) (h_site h)) l -> Forall (fun c => 0 < c) (x ++ y) -> In h l -> directory h = true -> same_case (h_site h) x ->
  (forall h', In h' l -> h' <> h -> ~ exists x' y', h_site h' = x' ++ y' /\ same_case (h_site h) x') -> get_site_handler l (x ++ y) = Some h.
Proof.
  intros So Fl Fu I0 D C No. pose proof (proj1 (Forall_forall _ _) Fl _ I0) as Fh. cbn beta in Fh. assert (Forall (fun c => 0 < c) y) as Fy by (apply Forall_app in Fu; tauto).
  assert (forall h', In h' l -> strcasecmp (h_site h) (h_site h') <= 0 -> strcasecmp (h_site h') (x ++ y) <= 0 -> h' = h \/ False) as Only.
  { intros h' I' L1 L2. pose proof (proj1 (Forall_forall _ _) Fl _ I') as Fh'. cbn beta in Fh'. destruct (between _ _ _ _ Fh Fh' C L1 L2) as (x' & y' & E & C'). left. assert ({h' = h} + {h' <> h}) as [Q|Q]; [|exact Q|exfalso; apply (No h' I' Q); eauto].
    repeat decide equality. }
  unfold get_site_handler. destruct (site_eq l (x ++ y)) as [h0|] eqn:E1.
  - apply find_some in E1. destruct E1 as (I1 & E). apply Z.eqb_eq in E. pose proof (proj1 (Forall_forall _ _) Fl _ I1) as F0. cbn beta in F0. f_equal. assert (same_case (h_site h0) (x ++ y)) as S0 by (apply strcasecmp_eq; [apply positive_no_nul; assumption|apply positive_no_nul; assumption|assumption]).
    destruct (Only h0 I1) as [Q|[]]; [|lia|exact Q]. pose proof (firstn_skipn (length (h_site h)) (h_site h0)) as Fs. assert (length (h_site h) = length x) as Lx by (unfold same_case in C; apply (f_equal (@length Z)) in C; rewrite !map_length in C; exact C).
    rewrite <- Fs. apply cmp_ext; [|rewrite <- Fs in F0; apply Forall_app in F0; tauto]. unfold same_case in *. rewrite <- firstn_map, S0, map_app, firstn_app, map_length, Lx, Nat.sub_diag. cbn [firstn]. rewrite app_nil_r, firstn_all2 by (rewrite map_length; lia). exact C.
  - assert ((strcasecmp (h_site h) (x ++ y) <=? 0) = true) as Lh by (apply Z.leb_le, cmp_ext; assumption). destruct (find_last (fun h => strcasecmp (h_site h) (x ++ y) <=? 0) l h I0 Lh) as (a & h' & b & El & Ef & Dj). unfold site_le. rewrite Ef. pose proof (find_some _ _ Ef) as (I' & L'). apply in_rev in I'. apply Z.leb_le in L'.
    assert (h' = h) as ->. { destruct Dj as [Q|Q]; [exact Q|]. destruct (Only h' I') as [Q'|[]]; [|exact L'|exact Q']. pose proof (sorted_after l a h h' b So El Q). lia. }
    rewrite D. cbn [andb]. assert (case_prefix (h_site h) (x ++ y) (zlen (h_site h)) = true) as ->; [|reflexivity]. apply strcase_eqb_same. assert (length (h_site h) = length x) as Lx by (unfold same_case in C; apply (f_equal (@length Z)) in C; rewrite !map_length in C; exact C). unfold zlen. rewrite Nat2Z.id, firstn_all, firstn_app, Lx, Nat.sub_diag, firstn_all. cbn [firstn]. rewrite app_nil_r. exact C.
Qed.

(** ** Files *)
Lemma path_dotdot p ws : Path p ws -> forall a b, ws = a ++ zs ".." :: b -> b <> [] -> exists x y, p = x ++ zs "../" ++ y /\ (x = [] \/ exists x', x = x' ++ [47]).
Proof.
  induction 1 as [w F|w t ws F P IH]; intros a b E Nb.
  - destruct a as [|? [|? ?]]; [injection E as _ <-; contradiction|discriminate|discriminate].
  - destruct a as [|a0 a].
    + injection E as -> ->. exists [], t. split; [reflexivity|left; reflexivity].
    + injection E as <- E. destruct (IH a b E Nb) as (x & y & -> & X). exists (w ++ 47 :: x), y. split; [rewrite <- app_assoc; reflexivity|]. right. destruct X as [-> |(x' & ->)]; [exists w; reflexivity|exists (w ++ 47 :: x'); rewrite <- app_assoc; reflexivity].
Qed.
Lemma cstr_at_val m p s : cstr_at m p = Some s -> exists a r, m = a ++ s ++ 0 :: r /\ zlen a = p.
Proof.
  unfold cstr_at. destruct (Z.leb_spec 0 p); [|discriminate]. destruct (Z.leb_spec p (zlen m)); [|discriminate]. cbn [andb]. intros E.
  assert (forall d s, upto0 d = Some s -> exists r, d = s ++ 0 :: r) as U.
  { clear. induction d as [|c d IH]; intros s; [discriminate|]. cbn [upto0]. destruct (Z.eqb_spec c 0) as [->|]; [intros [= <-]; eexists; reflexivity|]. destruct (upto0 d) as [s'|]; [|discriminate]. intros [= <-]. destruct (IH _ eq_refl) as (r & ->). eexists. reflexivity. }
  destruct (U _ _ E) as (r & Er). exists (firstn (Z.to_nat p) m), r. rewrite <- Er, firstn_skipn. split; [reflexivity|]. unfold zlen in *. rewrite firstn_length. lia.
Qed.
Lemma no_nul_split a b r1 r2 : no_nul a -> no_nul b -> a ++ 0 :: r1 = b ++ 0 :: r2 -> a = b.
Proof.
  intros Na. revert b. induction Na as [|x a X Na IH]; intros b Nb E; destruct Nb as [|y b Y Nb]; [reflexivity|injection E as E _; congruence|injection E as E _; contradiction|]. injection E as -> E. f_equal. exact (IH b Nb E).
Qed.
Lemma uri_tail m u p s : cstr_at m 0 = Some u -> cstr_at m p = Some s -> p <= zlen u -> exists x, u = x ++ s /\ zlen x = p.
Proof.
  intros E1 E2 L. pose proof (cstr_no_nul _ _ _ E1) as N1. pose proof (cstr_no_nul _ _ _ E2) as N2. destruct (cstr_at_val _ _ _ E1) as (a & r & Em & La). destruct (cstr_at_val _ _ _ E2) as (a2 & r2 & Em2 & La2).
  destruct a as [|? a]; [|rewrite zlen_cons in La; pose proof (zlen_nonneg a); lia]. cbn [app] in Em. destruct (zsplit u p) as (x & y & -> & Lx & _); [pose proof (zlen_nonneg a2); lia|]. exists x. split; [|exact Lx]. f_equal.
  rewrite Em, <- app_assoc in Em2. apply app_inj_len in Em2; [|lia]. destruct Em2 as (_ & Em2). apply Forall_app in N1. destruct N1 as (_ & N1). exact (no_nul_split _ _ _ _ N1 N2 Em2).
Qed.
Lemma split_slash_free w : free [47] w -> split_slash w = [w].
Proof. induction 1 as [|c w (_ & N) F IH]; [reflexivity|]. cbn [split_slash]. destruct (Z.eqb_spec c 47) as [->|]; [exfalso; apply N; left; reflexivity|]. rewrite IH. reflexivity. Qed.
Lemma split_slash_cons w t : free [47] w -> split_slash (w ++ 47 :: t) = w :: split_slash t.
Proof. induction 1 as [|c w (_ & N) F IH]; [reflexivity|]. cbn [app split_slash]. destruct (Z.eqb_spec c 47) as [->|]; [exfalso; apply N; left; reflexivity|]. rewrite IH. reflexivity. Qed.
Lemma split_slash_ok s ws : Path s ws -> split_slash s = ws.
Proof. induction 1 as [w F|w t ws F P IH]; [apply split_slash_free, F|]. rewrite split_slash_cons by exact F. now rewrite IH. Qed.
Lemma run_commands_ok exec l cs code : run_commands exec l = (cs, code) ->
  exists k, cs = map command (firstn k l) /\ (code = 200 /\ cs = map command l /\ Forall (fun c => exec (fst c) (snd c) = 200) cs \/
    code <> 200 /\ exists a c, cs = a ++ [c] /\ exec (fst c) (snd c) = code /\ Forall (fun c => exec (fst c) (snd c) = 200) a).
Proof.
  revert cs code. induction l as [|w l IH]; intros cs code; cbn [run_commands].
  - intros [= <- <-]. exists 0%nat. split; [reflexivity|]. left. repeat split. constructor.
  - cbv zeta. destruct (Z.eqb_spec (exec (fst (command w)) (snd (command w))) 200) as [E|N].
    + destruct (run_commands exec l) as (cs' & code') eqn:R. intros [= <- <-]. destruct (IH _ _ eq_refl) as (k & -> & D). exists (S k). split; [reflexivity|]. destruct D as [(-> & D1 & D2)|(D0 & a & c & D1 & D2 & D3)].
      * left. split; [reflexivity|]. split; [cbn [map]; now rewrite D1|]. constructor; assumption.
      * right. split; [exact D0|]. exists (command w :: a), c. split; [now rewrite D1|]. split; [exact D2|]. constructor; assumption.
    + intros [= <- <-]. exists 1%nat. split; [reflexivity|]. right. split; [exact N|]. exists [], (command w). repeat split. constructor.
Qed.
Lemma telnet_ok exec m s : cstr_at m 8 = Some s -> zlen s < 1024 -> telnet_handler exec m = Some (run_commands exec (split_slash s)).
Proof.
  intros E L. unfold telnet_handler. rewrite E. destruct (strscpy_split [] (repeat 165 1024) [] (s ++ [0]) 1024) as (t & z & Et & Lt & Es); [unfold zlen; rewrite repeat_length; reflexivity|lia|left; apply in_or_app; right; left; reflexivity|].
  cbn [app] in Es. rewrite app_nil_r in Es. change (zlen []) with 0 in Es. rewrite Es. pose proof (cstr_no_nul _ _ _ E) as N.
  assert (text (s ++ [0]) = s) as Ts by (rewrite text_no_nul by exact N; change (text [0]) with (@nil Z); apply app_nil_r). rewrite Ts in Et. rewrite firstn_all2 in Et by (unfold zlen in L; lia). subst t. rewrite app_nil_r. rewrite text_no_nul by exact N. change (text (0 :: z)) with (@nil Z). rewrite app_nil_r. reflexivity.
Qed.
