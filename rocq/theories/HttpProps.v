(** Theorems about the HTTP server: requests (C106), URIs and parameters (C107),
    sites and files (C108), pieces (C109), access (C110). *)
From Verif Require Import Base BitsModel StrBase BufLemmas SplitLemmas NetaddrModel CompModel StringModel StringSpec StringProofs StringProps HttpModel HttpSpec HttpProofs HttpProofs2 HttpProofs3 HttpProofs4 HttpProofs5.
From Coq Require Import Sorted.

(** ** C106: requests *)
(** whatever arrives: no access outside of the memory *)
Theorem C106_no_fault sites inp : receive sites inp <> Fault.
Proof. intros E. pose proof (receive_ok sites inp) as H. rewrite E in H. exact H. Qed.
Theorem C106_session_no_fault sites pieces : forall inp, session sites inp pieces <> SFault.
Proof.
  induction pieces as [|p ps IH]; intros inp; [discriminate|]. cbn [session]. destruct (_ <? _); [discriminate|]. destruct (receive sites (inp ++ p)) eqn:E; [destruct (C106_no_fault _ _ E)|apply IH|discriminate].
Qed.
(** a request is taken apart into method, URI, version and up to 16 fields *)
Theorem C106_request e t method uri version fs body : Request e t method uri version fs ->
  ((length fs <= 16)%nat -> exists mem u v l, parse_http_header (t ++ body) = HOk mem u v l /\
     cstr_at mem 0 = Some method /\ cstr_at mem u = Some uri /\ cstr_at mem v = Some version /\ strings mem l = Some fs) /\
  ((16 < length fs)%nat -> forall sites, receive sites (t ++ body) = Done (Error 400)).
Proof.
  intros R. pose proof (parse_ok e t method uri version fs body R) as P. split.
  - intros L. apply Nat.leb_le in L. change 16%nat with MAX_HEADERS in L. rewrite L in P. destruct P as (m & u & v & l & P & _ & P1). exists (m ++ e ++ body ++ [0]), u, v, l. split; [exact P|exact P1].
  - intros L sites. apply Nat.leb_gt in L. change 16%nat with MAX_HEADERS in L. rewrite L in P. unfold receive. destruct (header_end_found t (text (body ++ [0]))) as (first & Hf); [apply (Request_header _ _ _ _ _ _ R)|]. rewrite <- app_assoc, text_no_nul by exact (Request_no_nul _ _ _ _ _ _ R). rewrite Hf, P. reflexivity.
Qed.
(** a request of another version, or with a URI of 256 bytes or more, is rejected *)
Theorem C106_rejected sites e t method uri version fs body : Request e t method uri version fs -> (version <> zs "HTTP/1.0" /\ version <> zs "HTTP/1.1") \/ 256 <= zlen uri -> receive sites (t ++ body) = Done (Error 400).
Proof.
  intros R H. destruct (Nat.le_gt_cases (length fs) 16) as [L|L]; [|apply (proj2 (C106_request _ _ _ _ _ _ _ R) L)].
  destruct (proj1 (C106_request _ _ _ _ _ _ body R) L) as (mem & u & v & l & P & P0 & P1 & P2 & P3). unfold receive.
  destruct (header_end_found t (text (body ++ [0]))) as (first & Hf); [apply (Request_header _ _ _ _ _ _ R)|]. rewrite <- app_assoc, text_no_nul by exact (Request_no_nul _ _ _ _ _ _ R). rewrite Hf, P, P0, P1, P2, P3.
  destruct H as [(N1 & N2)|Lu].
  - destruct (str_eqb version (zs "HTTP/1.0")) eqn:E1; [apply str_eqb_eq in E1; contradiction|]. destruct (str_eqb version (zs "HTTP/1.1")) eqn:E2; [apply str_eqb_eq in E2; contradiction|]. reflexivity.
  - destruct (_ && _); [reflexivity|]. unfold MAX_URI. destruct (Z.leb_spec 256 (zlen uri)); [reflexivity|lia].
Qed.
(** a request is well-formed up to the case of a field name, but is rejected *)
Definition crlf (l : list bytes) : bytes := concat (map (fun w => w ++ CRLF) l).
Definition page (site : bytes) : handler := {| h_site := site; h_content := None; h_acl := true; h_auth := [] |}.
Theorem C106_field_case_refuted : exists t fs body sites, Request CRLF t (zs "POST") (zs "/a") (zs "HTTP/1.1") fs /\ fs = [(zs "content-length", zs "3")] /\ body = zs "x=1" /\
  sites = [page (zs "/a")] /\ receive sites (t ++ body) = Done (Error 400) /\
  exists t' m, Request CRLF t' (zs "POST") (zs "/a") (zs "HTTP/1.1") [(zs "Content-Length", zs "3")] /\ receive sites (t' ++ body) = Done (Call (page (zs "/a")) m [(zs "Content-Length", zs "3")] [(zs "x", zs "1")]).
Proof.
  assert (forall n, free [58; 32; 9; 10; 13] n -> Request CRLF (crlf [zs "POST /a HTTP/1.1"; n ++ zs ": 3"; []]) (zs "POST") (zs "/a") (zs "HTTP/1.1") [(n, zs "3")]) as H.
  { intros n F. split; [left; reflexivity|]. split; [repeat constructor; cbn; lia|]. split; [repeat constructor; cbn; lia|]. split; [repeat constructor; cbn; lia|]. exists (n ++ 58 :: [32] ++ zs "3" ++ CRLF ++ []). split.
    - apply Fields_cons; [exact F|repeat constructor|repeat constructor; cbn; lia| |apply Fields_nil]. intros c r Q. injection Q as <- <-. lia.
    - unfold crlf. cbn [map concat]. change (zs ": 3") with (58 :: [32] ++ zs "3"). repeat (rewrite <- app_assoc; cbn [app]). reflexivity. }
  eexists _, _, _, _. split; [apply (H (zs "content-length")); repeat constructor; cbn; lia|]. split; [reflexivity|]. split; [reflexivity|]. split; [reflexivity|]. split; [vm_compute; reflexivity|].
  eexists _, _. split; [apply (H (zs "Content-Length")); repeat constructor; cbn; lia|]. vm_compute. reflexivity.
Qed.
Example C106_ex : Request CRLF (crlf [zs "GET /x HTTP/1.0"; zs "Host: h"; []]) (zs "GET") (zs "/x") (zs "HTTP/1.0") [(zs "Host", zs "h")].
Proof.
  split; [left; reflexivity|]. split; [repeat constructor; cbn; lia|]. split; [repeat constructor; cbn; lia|]. split; [repeat constructor; cbn; lia|]. exists (zs "Host" ++ 58 :: [32] ++ zs "h" ++ CRLF ++ []). split; [|reflexivity].
  apply Fields_cons; [repeat constructor; cbn; lia|repeat constructor|repeat constructor; cbn; lia| |apply Fields_nil]. intros c r Q. injection Q as <- <-. lia.
Qed.

(** ** C107: URIs and parameters *)
(** a GET request without parameters goes to the site of the decoded path *)
Theorem C107_get sites e t uri version fs body u frag p : Request e t (zs "GET") uri version fs -> (length fs <= 16)%nat -> version = zs "HTTP/1.0" \/ version = zs "HTTP/1.1" -> zlen uri < 256 ->
  uri = u ++ frag -> free [35] u -> (frag = [] \/ exists f, frag = 35 :: f) -> Encoded u p -> free [63] p ->
  (get_site_handler sites p = None -> receive sites (t ++ body) = Done (Error 404)) /\
  forall h, get_site_handler sites p = Some h ->
    (h_content h <> None -> receive sites (t ++ body) = Done (Static h)) /\
    (h_content h = None -> h_acl h = true -> h_auth h = [] -> exists m, cstr_at m 0 = Some p /\ receive sites (t ++ body) = Done (Call h m fs [])).
Proof.
  intros R Lf V Lu Eu Fu Ff En Fp. destruct (get_plain sites e t uri version fs body u frag p R Lf V Lu Eu Fu Ff En Fp) as (m & _ & Em & ->). unfold answer. rewrite Em. split; [intros ->; reflexivity|]. intros h ->. split.
  - destruct (h_content h); [reflexivity|contradiction].
  - intros -> -> ->. eauto.
Qed.
(** with parameters: the first eight reach the handler *)
Theorem C107_get_parameters sites e t uri version fs body u frag p q ps : Request e t (zs "GET") uri version fs -> (length fs <= 16)%nat -> version = zs "HTTP/1.0" \/ version = zs "HTTP/1.1" -> zlen uri < 256 ->
  uri = u ++ frag -> free [35] u -> (frag = [] \/ exists f, frag = 35 :: f) -> Encoded u (p ++ 63 :: q) -> free [63] p -> Params q ps ->
  (get_site_handler sites p = None -> receive sites (t ++ body) = Done (Error 404)) /\
  forall h, get_site_handler sites p = Some h ->
    (h_content h <> None -> receive sites (t ++ body) = Done (Static h)) /\
    (h_content h = None -> h_acl h = true -> h_auth h = [] -> exists m, cstr_at m 0 = Some p /\ receive sites (t ++ body) = Done (Call h m fs (firstn 8 ps))).
Proof.
  intros R Lf V Lu Eu Fu Ff En Fp Pq. destruct (get_query sites e t uri version fs body u frag p q ps R Lf V Lu Eu Fu Ff En Fp Pq) as (m & Em & ->). unfold answer. rewrite Em. split; [intros ->; reflexivity|]. intros h ->. split.
  - destruct (h_content h); [reflexivity|contradiction].
  - intros -> -> ->. eauto.
Qed.
(** a complete POST request: the parameters of the body, as they are *)
Theorem C107_post_partial sites t uri version fs body u frag p cl ps : Request CRLF t (zs "POST") uri version fs -> (length fs <= 16)%nat -> version = zs "HTTP/1.0" \/ version = zs "HTTP/1.1" -> zlen uri < 256 ->
  uri = u ++ frag -> free [35] u -> (frag = [] \/ exists f, frag = 35 :: f) -> Encoded u p -> free [] p ->
  lookup fs (zs "Content-Length") = Some cl -> fst (strtoul10 cl) = zlen body -> Params body ps ->
  forall h, get_site_handler sites p = Some h -> h_content h = None -> h_acl h = true -> h_auth h = [] ->
  exists m, cstr_at m 0 = Some p /\ receive sites (t ++ body) = Done (Call h m fs (firstn 8 ps)).
Proof.
  intros R Lf V Lu Eu Fu Ff En Fp Lk Lb Pq h G C A Au. destruct (post_whole sites t uri version fs body u frag p cl ps R Lf V Lu Eu Fu Ff En Fp Lk Lb Pq) as (m & Em & ->). unfold answer. rewrite Em, G, C, A, Au. eauto.
Qed.
Definition get (uri : bytes) : bytes := crlf [zs "GET " ++ uri ++ zs " HTTP/1.0"; []].
(** a URI that is no encoding of anything is not rejected: the wrong escape ends the path *)
Theorem C107_wrong_escape_refuted : exists uri, (forall d, ~ Encoded uri d) /\ exists m, receive [page (zs "/a")] (get uri) = Done (Call (page (zs "/a")) m [] []).
Proof.
  exists (zs "/a%zzb"). split; [|eexists; vm_compute; reflexivity]. intros d E. inversion E as [|c t s N E1|]; subst. inversion E1 as [|c t s' N1 E2|]; subst. inversion E2 as [|c t s'' N2 E3|a b x y t s'' A B E3]; subst; [apply N2; reflexivity|]. destruct A as [A|[A|A]]; vm_compute in A; intuition congruence.
Qed.
(** an escape with a sign is read as a number *)
Theorem C107_signed_escape_refuted : exists uri, (forall d, ~ Encoded uri d) /\ decode uri = [47; 255].
Proof. exists (zs "/%-1"). split; [|reflexivity]. intros d E. inversion E as [|c t s N E1|]; subst. inversion E1 as [|c t s'' N2 E3|a b x y t s'' A B E3]; subst; [apply N2; reflexivity|]. destruct A as [A|[A|A]]; vm_compute in A; intuition congruence. Qed.
(** an encoded separator inside of a value separates *)
Theorem C107_encoded_separator_refuted : exists n v ev, Encoded ev v /\ n = zs "x" /\ v = zs "1&y=2" /\ exists m, receive [page (zs "/a")] (get (zs "/a?" ++ n ++ 61 :: ev)) = Done (Call (page (zs "/a")) m [] [(n, zs "1"); (zs "y", zs "2")]).
Proof.
  exists (zs "x"), (zs "1&y=2"), (zs "1%26y=2"). split; [|split; [reflexivity|split; [reflexivity|eexists; vm_compute; reflexivity]]].
  apply Enc_plain; [discriminate|]. apply (Enc_hex _ _ 2 6); [left; split; [split; vm_compute; discriminate|reflexivity]|left; split; [split; vm_compute; discriminate|reflexivity]|]. repeat (apply Enc_plain; [discriminate|]). constructor.
Qed.
(** the parameters of a POST request are not decoded *)
Definition post (uri body : bytes) (n : bytes) : bytes := crlf [zs "POST " ++ uri ++ zs " HTTP/1.0"; zs "Content-Length: " ++ n; []] ++ body.
Theorem C107_post_encoded_refuted : exists v ev, Encoded ev v /\ v = zs "A" /\ exists m fs, receive [page (zs "/a")] (post (zs "/a") (zs "x=" ++ ev) (zs "5")) = Done (Call (page (zs "/a")) m fs [(zs "x", zs "%41")]).
Proof.
  exists (zs "A"), (zs "%41"). split; [apply (Enc_hex _ _ 4 1); [left; split; [split; vm_compute; discriminate|reflexivity]|left; split; [split; vm_compute; discriminate|reflexivity]|constructor]|]. split; [reflexivity|]. eexists _, _. vm_compute. reflexivity.
Qed.
Example C107_ex : Encoded (zs "/a%20b?x=1") (zs "/a b?x=1") /\ Params (zs "x=1&y=") [(zs "x", zs "1"); (zs "y", [])] /\
  exists m, receive [page (zs "/a b")] (get (zs "/a%20b?x=1#f")) = Done (Call (page (zs "/a b")) m [] [(zs "x", zs "1")]).
Proof.
  split; [do 2 (apply Enc_plain; [discriminate|]); apply (Enc_hex _ _ 2 0); [left; split; [split; vm_compute; discriminate|reflexivity]|left; split; [split; vm_compute; discriminate|reflexivity]|]; repeat (apply Enc_plain; [discriminate|]); constructor|]. split; [|eexists; vm_compute; reflexivity].
  apply (Params_cons (zs "x") (zs "1") (zs "y=")); [discriminate|repeat constructor; cbn; lia|repeat constructor; cbn; lia|]. apply (Params_one (zs "y") []); [discriminate|repeat constructor; cbn; lia|constructor].
Qed.

(** ** C108: sites and files *)
Definition bytesets (sites : list handler) : Prop := Forall (fun h => Forall (fun c => 0 < c) (h_site h)) sites.
(** the handler that is called is responsible for the path *)
Theorem C108_responsible sites inp h m fs ps : Forall (fun h => no_nul (h_site h)) sites -> receive sites inp = Done (Call h m fs ps) -> exists u, cstr_at m 0 = Some u /\ In h sites /\ responsible h u.
Proof.
  intros B E. pose proof (receive_ok sites inp) as R. rewrite E in R. destruct R as (_ & I0 & _ & _ & u & Eu & G). exists u. split; [exact Eu|]. split; [exact I0|]. apply (site_sound sites u h B); [exact (cstr_no_nul m 0 u Eu)|exact G].
Qed.
(** a directory answers for everything in it, if no other site is in it *)
Theorem C108_directory_partial sites h x y : sorted sites -> bytesets sites -> Forall (fun c => 0 < c) (x ++ y) -> In h sites -> directory h = true -> same_case (h_site h) x ->
  (forall h', In h' sites -> h' <> h -> ~ exists x' y', h_site h' = x' ++ y' /\ same_case (h_site h) x') -> get_site_handler sites (x ++ y) = Some h.
Proof. apply site_directory. Qed.
(** a site in a directory hides the directory *)
Theorem C108_nested_refuted : exists sites h uri, sorted sites /\ In h sites /\ responsible h uri /\ directory h = true /\ get_site_handler sites uri = None.
Proof.
  exists [page (zs "/a/"); page (zs "/a/b")], (page (zs "/a/")), (zs "/a/c"). split; [apply SSorted_cons; [apply SSorted_cons; [apply SSorted_nil|constructor]|repeat constructor]|]. split; [left; reflexivity|]. split; [|split; reflexivity].
  right. left. exists (zs "/a"), (zs "/a/"), (zs "c"). repeat split.
Qed.
(** files: for a path in the directory, the file is below the directory, or the
    directory above it *)
Theorem C108_file_partial sites inp h m fs ps u x y path : receive sites inp = Done (Call h m fs ps) -> cstr_at m 0 = Some u -> u = x ++ y -> same_case (zs "/www/") x -> file_handler m = FileOpen path ->
  path = y /\ (forall r, path <> 47 :: r) /\ forall ws, Path path ws -> forall a b, ws = a ++ zs ".." :: b -> b = [].
Proof.
  intros _ Eu Ex C F. unfold file_handler in F. rewrite Eu in F. destruct (cstr_at m 5) as [file|] eqn:Ef; [|discriminate]. destruct (strstr u (zs "/../") 0) eqn:S; [discriminate|].
  assert (zlen x = 5) as Lx by (unfold same_case in C; apply (f_equal (@length Z)) in C; rewrite !map_length in C; unfold zlen; rewrite <- C; reflexivity).
  destruct (uri_tail m u 5 file Eu Ef) as (x' & Ex' & Lx'); [rewrite Ex, zlen_app; pose proof (zlen_nonneg y); lia|]. assert (x' = x /\ file = y) as (-> & ->) by (rewrite Ex in Ex'; symmetry in Ex'; apply app_inj_len in Ex'; [exact Ex'|lia]).
  assert (path = y /\ forall r, y <> 47 :: r) as (-> & Ny). { destruct y as [|c y]; [injection F as <-; split; [reflexivity|discriminate]|]. destruct (Z.eqb_spec c 47) as [|N]; [discriminate|]. injection F as <-. split; [reflexivity|]. intros r Q. injection Q as Q _. contradiction. }
  split; [reflexivity|]. split; [exact Ny|]. intros ws P a b Ew. destruct b as [|b0 b]; [reflexivity|]. exfalso. destruct (path_dotdot _ _ P a (b0 :: b) Ew) as (q & z & Eq & Q); [discriminate|].
  assert (exists x0, x = x0 ++ [47]) as (x0 & Ex0).
  { unfold same_case in C. destruct x as [|c0 [|c1 [|c2 [|c3 [|c4 [|? ?]]]]]]; try discriminate. injection C as _ _ _ _ C4. exists [c0; c1; c2; c3]. cbn [app]. assert (c4 = 47) as ->; [|reflexivity]. change (47 = tolower c4) in C4. unfold tolower in C4. destruct ((65 <=? c4) && (c4 <=? 90)) eqn:T1; [|congruence]. apply andb_true_iff in T1. rewrite !Z.leb_le in T1. lia. }
  destruct Q as [-> |(q' & ->)].
  - apply (strstr_none _ _ _ S x0 z). rewrite Ex, Ex0, Eq. change (zs "/../") with ([47] ++ zs "../"). repeat (rewrite <- app_assoc; cbn [app]). reflexivity.
  - apply (strstr_none _ _ _ S (x ++ q') z). rewrite Ex, Eq. change (zs "/../") with ([47] ++ zs "../"). repeat (rewrite <- app_assoc; cbn [app]). reflexivity.
Qed.
(** a client reads files anywhere: the handler answers for the directory without the
    slash, and what is taken for the file name is behind the end of the path *)
Theorem C108_traversal_refuted : exists uri m ps, receive [page (zs "/www/")] (get uri) = Done (Call (page (zs "/www/")) m [] ps) /\ file_handler m = FileOpen (zs "../../etc/passwd").
Proof. exists (zs "/www?../../etc/passwd"). eexists _, _. split; vm_compute; reflexivity. Qed.
Theorem C108_traversal_zero_refuted : exists uri m, receive [page (zs "/www/")] (get uri) = Done (Call (page (zs "/www/")) m [] []) /\ file_handler m = FileOpen (zs "../../etc/passwd").
Proof. exists (zs "/www%00../../etc/passwd"). eexists. split; vm_compute; reflexivity. Qed.
(** the built-in handlers stay within the memory of the URI *)
Theorem C108_handlers_safe sites inp h m fs ps exec : receive sites inp = Done (Call h m fs ps) -> file_handler m <> FileFault /\ telnet_handler exec m <> None.
Proof.
  intros E. pose proof (receive_ok sites inp) as R. rewrite E in R. destruct R as (U & _). split.
  - unfold file_handler. destruct (mem_cstr m 0 U ltac:(lia)) as (u & ->). destruct (mem_cstr m 5 U ltac:(lia)) as (f & ->). destruct (strstr _ _ _); [discriminate|]. destruct f as [|c f]; [discriminate|]. destruct (c =? 47); discriminate.
  - destruct (mem_cstr m 8 U ltac:(lia)) as (s & Es). rewrite (telnet_ok exec m s Es); [discriminate|]. destruct (cstr_at_val _ _ _ Es) as (a & r & Em & La). destruct U as (Lm & _). rewrite Em, !zlen_app, zlen_cons in Lm. pose proof (zlen_nonneg r). lia.
Qed.
(** telnet commands: one per component of the path, until the first that fails *)
Theorem C108_telnet sites inp h m fs ps exec u x s ws : receive sites inp = Done (Call h m fs ps) -> cstr_at m 0 = Some u -> u = x ++ s -> same_case (zs "/telnet/") x -> Path s ws ->
  exists cs code done rest, telnet_handler exec m = Some (cs, code) /\ ws = done ++ rest /\ Forall2 (fun w c => Cmd w (fst c) (snd c)) done cs /\
    (code = 200 /\ rest = [] /\ Forall (fun c => exec (fst c) (snd c) = 200) cs \/
     code <> 200 /\ exists a c, cs = a ++ [c] /\ exec (fst c) (snd c) = code /\ Forall (fun c => exec (fst c) (snd c) = 200) a).
Proof.
  intros E Eu Ex C P. pose proof (receive_ok sites inp) as R. rewrite E in R. destruct R as (U & _). destruct (mem_cstr m 8 U ltac:(lia)) as (s' & Es).
  assert (zlen x = 8) as Lx by (unfold same_case in C; apply (f_equal (@length Z)) in C; rewrite !map_length in C; unfold zlen; rewrite <- C; reflexivity).
  destruct (uri_tail m u 8 s' Eu Es) as (x' & Ex' & Lx'); [rewrite Ex, zlen_app; pose proof (zlen_nonneg s); lia|]. assert (x' = x /\ s' = s) as (-> & ->) by (rewrite Ex in Ex'; symmetry in Ex'; apply app_inj_len in Ex'; [exact Ex'|lia]).
  assert (zlen s < 1024) as Ls. { destruct (cstr_at_val _ _ _ Es) as (a & r & Em & La). destruct U as (Lm & _). rewrite Em, !zlen_app, zlen_cons in Lm. pose proof (zlen_nonneg r). lia. }
  rewrite (telnet_ok exec m s Es Ls), (split_slash_ok _ _ P). destruct (run_commands exec ws) as (cs & code) eqn:Rc. destruct (run_commands_ok _ _ _ _ Rc) as (k & Ek & D).
  assert (forall l, (forall w, In w l -> free [] w) -> Forall2 (fun w c => Cmd w (fst c) (snd c)) l (map command l)) as F2.
  { induction l as [|w l IH]; intros Fl; [constructor|]. cbn [map]. constructor; [|apply IH; intros w0 Hw0; apply Fl; right; exact Hw0]. unfold Cmd, command. cbn [fst snd]. pose proof (take_drop (fun c => negb (c =? 32)) w) as Td. pose proof (take_while_all (fun c => negb (c =? 32)) w) as Ta. pose proof (drop_while_head (fun c => negb (c =? 32)) w) as Dh.
    assert (free [32] (take_while (fun c => negb (c =? 32)) w)) as Ft. { rewrite forallb_forall in Ta. apply Forall_forall. intros c Hc. split; [|intros [<- |[]]; specialize (Ta _ Hc); discriminate]. assert (In c w) as Hw by (rewrite <- Td; apply in_or_app; left; exact Hc). exact (proj1 (proj1 (Forall_forall _ _) (Fl w (or_introl eq_refl)) c Hw)). }
    destruct (drop_while (fun c => negb (c =? 32)) w) as [|c r]; [left|right].
    - rewrite app_nil_r in Td. rewrite Td in *. repeat split; auto.
    - specialize (Dh c r eq_refl). apply negb_false_iff, Z.eqb_eq in Dh. subst c. cbn [tl]. split; [symmetry; exact Td|exact Ft]. }
  assert (forall w, In w ws -> free [] w) as Fw. { clear - P. induction P as [w F|w t ws F P IH]; intros w0 H; [destruct H as [<- |[]]|destruct H as [<- |H]; [|exact (IH w0 H)]]; eapply free_sub; try exact F; cbn; tauto. }
  destruct D as [(-> & D1 & D2)|(D0 & D)].
  - exists cs, 200, ws, []. split; [reflexivity|]. split; [symmetry; apply app_nil_r|]. split; [rewrite D1; apply F2, Fw|]. left. auto.
  - exists cs, code, (firstn k ws), (skipn k ws). split; [reflexivity|]. split; [symmetry; apply firstn_skipn|]. split; [rewrite Ek; apply F2; intros w Hw; apply Fw; rewrite <- (firstn_skipn k ws); apply in_or_app; left; exact Hw|]. right. auto.
Qed.
Example C108_ex : sorted [page (zs "/telnet/"); page (zs "/www/")] /\ bytesets [page (zs "/telnet/"); page (zs "/www/")] /\
  exists m, receive [page (zs "/telnet/"); page (zs "/www/")] (get (zs "/www/a/b.txt")) = Done (Call (page (zs "/www/")) m [] []) /\ cstr_at m 0 = Some (zs "/www/a/b.txt") /\ file_handler m = FileOpen (zs "a/b.txt").
Proof.
  split; [apply SSorted_cons; [apply SSorted_cons; [apply SSorted_nil|constructor]|repeat constructor]|]. split; [repeat constructor; cbn; lia|]. eexists. split; [vm_compute; reflexivity|]. split; vm_compute; reflexivity.
Qed.

(** ** C109: pieces *)
(** the header of a request ends with its first blank line *)
Theorem C109_header e t method uri version fs : Request e t method uri version fs -> Header t /\ no_nul t.
Proof. intros R. split; [exact (Request_header _ _ _ _ _ _ R)|exact (Request_no_nul _ _ _ _ _ _ R)]. Qed.
(** before it nothing is answered *)
Theorem C109_waits sites inp : no_nul inp -> (forall a b, inp = a ++ b -> ~ Ends a) -> receive sites inp = Wait inp.
Proof. intros N H. unfold receive. rewrite text_no_nul by exact N. change (text [0]) with (@nil Z). rewrite app_nil_r, header_end_none by exact H. reflexivity. Qed.
(** the reply does not depend on how the data is cut into pieces, nor on what follows
    the header; not for POST requests *)
Theorem C109_pieces_partial sites t rest pieces : Header t -> no_nul t -> is_prefix (zs "POST") t = false -> concat pieces = t ++ rest -> zlen (t ++ rest) <= 65536 ->
  exists r, receive sites t = Done r /\ session sites [] pieces = Replied r.
Proof.
  intros H N P C L. pose proof H as (E & _). destruct (receive_indep sites t [] E N P) as (_ & W). destruct (receive sites t) as [|i|r] eqn:R; [destruct (C106_no_fault _ _ R)|destruct (W i eq_refl)|]. exists r. split; [reflexivity|]. apply (session_ok sites t rest r H N P R L); [exact C|].
  change (zlen []) with 0. destruct E as (p & [-> | ->]); rewrite zlen_app; pose proof (zlen_nonneg p); [change (zlen [13; 10; 13; 10]) with 4|change (zlen [10; 10]) with 2]; lia.
Qed.
(** a POST request whose body comes later is never answered *)
Theorem C109_post_refuted : exists t body, (exists m fs, receive [page (zs "/a")] (t ++ body) = Done (Call (page (zs "/a")) m fs [(zs "x", repeat 122 98)])) /\
  exists inp, session [page (zs "/a")] [] [t; body] = Waiting inp.
Proof.
  exists (crlf [zs "POST /a HTTP/1.0"; zs "Content-Length: 100"; []]), (zs "x=" ++ repeat 122 98). split; [eexists _, _|eexists]; vm_compute; reflexivity.
Qed.
(** a body that has not arrived yet is taken as it is: the length is compared with header and body *)
Theorem C109_truncated_refuted : exists t body a b, body = a ++ b /\ (exists m fs, receive [page (zs "/a")] (t ++ body) = Done (Call (page (zs "/a")) m fs [(zs "x", zs "12345")])) /\
  exists m fs, session [page (zs "/a")] [] [t ++ a; b] = Replied (Call (page (zs "/a")) m fs [(zs "x", zs "12")]).
Proof.
  exists (crlf [zs "POST /a HTTP/1.0"; zs "Content-Length: 7"; []]), (zs "x=12345"), (zs "x=12"), (zs "345"). split; [reflexivity|]. split; eexists _, _; vm_compute; reflexivity.
Qed.
(** lines ended by line feeds: a blank line in the body is taken for the end of the header *)
Theorem C109_line_feed_refuted : exists t body fs, Request LF t (zs "POST") (zs "/a") (zs "HTTP/1.0") fs /\ lookup fs (zs "Content-Length") = Some (zs "11") /\ zlen body = 11 /\ Params body [(zs "x", zs "1" ++ END1); (zs "y", zs "2")] /\
  exists m, receive [page (zs "/a")] (t ++ body) = Done (Call (page (zs "/a")) m fs [(zs "y", zs "2")]).
Proof.
  exists (zs "POST /a HTTP/1.0" ++ LF ++ zs "Content-Length: 11" ++ LF ++ LF), (zs "x=1" ++ END1 ++ zs "&y=2"), [(zs "Content-Length", zs "11")].
  split.
  { split; [right; reflexivity|]. split; [repeat constructor; cbn; lia|]. split; [repeat constructor; cbn; lia|]. split; [repeat constructor; cbn; lia|]. exists (zs "Content-Length" ++ 58 :: [32] ++ zs "11" ++ LF ++ []). split; [|reflexivity].
    apply Fields_cons; [repeat constructor; cbn; lia|repeat constructor|repeat constructor; cbn; lia| |apply Fields_nil]. intros c r Q. injection Q as <- <-. lia. }
  split; [reflexivity|]. split; [reflexivity|]. split; [|eexists; vm_compute; reflexivity].
  apply (Params_cons (zs "x") (zs "1" ++ END1) (zs "y=2")); [discriminate|repeat constructor; cbn; lia|repeat constructor; cbn; lia|]. apply (Params_one (zs "y") (zs "2")); [discriminate|repeat constructor; cbn; lia|repeat constructor; cbn; lia].
Qed.
Example C109_ex : Header (get (zs "/a")) /\ no_nul (get (zs "/a")) /\ is_prefix (zs "POST") (get (zs "/a")) = false /\
  exists m, session [page (zs "/a")] [] [zs "GET /"; zs "a HTTP/1.0" ++ [13]; [10; 13; 10]] = Replied (Call (page (zs "/a")) m [] []).
Proof.
  assert (Request CRLF (get (zs "/a")) (zs "GET") (zs "/a") (zs "HTTP/1.0") []) as R.
  { split; [left; reflexivity|]. split; [repeat constructor; cbn; lia|]. split; [repeat constructor; cbn; lia|]. split; [repeat constructor; cbn; lia|]. exists []. split; [apply Fields_nil|reflexivity]. }
  destruct (C109_header _ _ _ _ _ _ R) as (H & N). split; [exact H|]. split; [exact N|]. split; [reflexivity|]. eexists. vm_compute. reflexivity.
Qed.

(** ** C110: access *)
(** a handler is called only for clients in its access list, with its credentials if it has some *)
Theorem C110_access_partial sites inp h m fs ps : receive sites inp = Done (Call h m fs ps) -> In h sites /\ h_acl h = true /\ (h_auth h = [] \/ credential h fs).
Proof.
  intros E. pose proof (receive_ok sites inp) as R. rewrite E in R. destruct R as (_ & I0 & A & Au & _). split; [exact I0|]. split; [exact A|]. destruct Au as [Au|Au]; [left; exact Au|right].
  unfold auth_okay in Au. destruct (lookup fs (zs "Authorization")) as [auth|] eqn:L; [|discriminate]. unfold lookup in L. destruct (find _ fs) as [(k, v)|] eqn:F; [|discriminate]. injection L as <-. apply find_some in F. destruct F as (If & K). apply str_eqb_eq in K. cbn [fst] in K. subst k. cbn [snd] in *.
  destruct (hasnextword v (zs "Basic")) as [pw|] eqn:W; [|discriminate]. apply existsb_exists in Au. destruct Au as (a & Ia & Ea). apply str_eqb_eq in Ea. subst a.
  destruct (Words_exist v) as (ws & Hw). destruct (proj1 (C31_hasnextword v (zs "Basic") ws ltac:(discriminate) Hw) pw W) as (w & ws' & -> & Cw & Wp). exists v, w, ws', pw. repeat split; assumption.
Qed.
(** without them the client gets an error, whatever it sends *)
Theorem C110_refused sites inp h m fs ps : receive sites inp = Done (Call h m fs ps) -> h_acl h = false -> False.
Proof. intros E A. destruct (C110_access_partial _ _ _ _ _ _ E) as (_ & A' & _). congruence. Qed.
(** static content is handed out to everyone *)
Theorem C110_static_refuted : exists h inp, h_acl h = false /\ h_auth h <> [] /\ h_content h <> None /\ receive [h] inp = Done (Static h).
Proof. exists {| h_site := zs "/s"; h_content := Some (zs "secret"); h_acl := false; h_auth := [zs "dXNlcjpwdw=="] |}, (get (zs "/s")). split; [reflexivity|]. split; [discriminate|]. split; [discriminate|]. vm_compute. reflexivity. Qed.
Definition guarded_page : handler := {| h_site := zs "/p"; h_content := None; h_acl := true; h_auth := [zs "dXNlcjpwdw=="] |}.
Example C110_ex : receive [guarded_page] (get (zs "/p")) = Done (Error 401) /\
  exists m fs, receive [guarded_page] (crlf [zs "GET /p HTTP/1.0"; zs "Authorization: Basic dXNlcjpwdw=="; []]) = Done (Call guarded_page m fs []).
Proof. split; [vm_compute; reflexivity|]. eexists _, _. vm_compute. reflexivity. Qed.

Print Assumptions C106_no_fault.
Print Assumptions C106_session_no_fault.
Print Assumptions C106_request.
Print Assumptions C106_rejected.
Print Assumptions C106_field_case_refuted.
Print Assumptions C107_get.
Print Assumptions C107_get_parameters.
Print Assumptions C107_post_partial.
Print Assumptions C107_wrong_escape_refuted.
Print Assumptions C107_signed_escape_refuted.
Print Assumptions C107_encoded_separator_refuted.
Print Assumptions C107_post_encoded_refuted.
Print Assumptions C108_responsible.
Print Assumptions C108_directory_partial.
Print Assumptions C108_nested_refuted.
Print Assumptions C108_file_partial.
Print Assumptions C108_traversal_refuted.
Print Assumptions C108_traversal_zero_refuted.
Print Assumptions C108_handlers_safe.
Print Assumptions C108_telnet.
Print Assumptions C109_header.
Print Assumptions C109_waits.
Print Assumptions C109_pieces_partial.
Print Assumptions C109_post_refuted.
Print Assumptions C109_truncated_refuted.
Print Assumptions C109_line_feed_refuted.
Print Assumptions C110_access_partial.
Print Assumptions C110_refused.
Print Assumptions C110_static_refuted.
