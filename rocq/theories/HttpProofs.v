(** Proofs about HTTP requests. *)
From Verif Require Import Base BitsModel StrBase BufLemmas SplitLemmas NetaddrModel CompModel StringModel StringSpec StringProofs StringProps HttpModel HttpSpec.

(** ** C strings in memory *)
Lemma upto0_app s r : no_nul s -> upto0 (s ++ 0 :: r) = Some s.
Proof. intros N. induction N as [|c s Hc N IH]; [reflexivity|]. cbn [app upto0]. destruct (Z.eqb_spec c 0); [easy|]. now rewrite IH. Qed.
Lemma cstr_at_app pre s r p : p = zlen pre -> no_nul s -> cstr_at (pre ++ s ++ 0 :: r) p = Some s.
Proof.
  intros -> N. unfold cstr_at. rewrite !zlen_app, zlen_cons. pose proof (zlen_nonneg pre). pose proof (zlen_nonneg s). pose proof (zlen_nonneg r).
  destruct (Z.leb_spec 0 (zlen pre)); [|lia]. destruct (Z.leb_spec (zlen pre) (zlen pre + (zlen s + (zlen r + 1)))); [|lia]. cbn [andb].
  unfold zlen. rewrite Nat2Z.id, skipn_app, skipn_all, Nat.sub_diag. cbn [app skipn]. apply upto0_app, N.
Qed.
Lemma upto0_some m r : exists s, upto0 (m ++ 0 :: r) = Some s.
Proof. induction m as [|c m (s & E)]; [exists []; reflexivity|]. cbn [app upto0]. destruct (c =? 0); [eauto|]. rewrite E. eauto. Qed.
Lemma cstr_at_some m p : 0 <= p <= zlen m -> exists s, cstr_at (m ++ [0]) p = Some s.
Proof.
  intros H. unfold cstr_at. rewrite zlen_app. change (zlen [0]) with 1. destruct (Z.leb_spec 0 p); [|lia]. destruct (Z.leb_spec p (zlen m + 1)); [|lia]. cbn [andb].
  rewrite skipn_app. replace (Z.to_nat p - length m)%nat with 0%nat by (unfold zlen in H; lia). cbn [skipn]. apply upto0_some.
Qed.
Lemma upto0_text m s : upto0 m = Some s -> s = text m.
Proof. revert s. induction m as [|c m IH]; intros s; [discriminate|]. cbn [upto0 text]. destruct (c =? 0); [intros [= <-]; reflexivity|]. destruct (upto0 m) as [b|]; [|discriminate]. intros [= <-]. f_equal. now apply IH. Qed.
Lemma no_nul_upto0 m s : upto0 m = Some s -> no_nul s.
Proof. revert s. induction m as [|c m IH]; intros s; [discriminate|]. cbn [upto0]. destruct (Z.eqb_spec c 0); [intros [= <-]; constructor|]. destruct (upto0 m); [|discriminate]. intros [= <-]. constructor; auto. apply IH; reflexivity. Qed.
Lemma cstr_no_nul m p s : cstr_at m p = Some s -> no_nul s.
Proof. unfold cstr_at. destruct (_ && _); [|discriminate]. apply no_nul_upto0. Qed.

(** ** The request line *)
Lemma lpush_app a b r : lpush a (lpush b r) = lpush (a ++ b) r.
Proof. destruct r; cbn; auto. now rewrite app_assoc. Qed.
Lemma npush_app a b r : npush a (npush b r) = npush (a ++ b) r.
Proof. destruct r; cbn; auto. now rewrite app_assoc. Qed.
Lemma vpush_app a b r : vpush a (vpush b r) = vpush (a ++ b) r.
Proof. destruct r; cbn; auto. now rewrite app_assoc. Qed.
Lemma req_skip w r pos len u v : Forall (fun c => c <> 13 /\ c <> 10 /\ (c = 32 -> v <> None)) w -> 2 <= len ->
  req_line (w ++ r) pos (zlen w + len) u v = lpush w (req_line r (pos + zlen w) len u v).
Proof.
  intros F L. revert pos. induction F as [|c w (A & B & C) F IH]; intros pos.
  - cbn [app]. change (zlen []) with 0. rewrite Z.add_0_r, Z.add_0_l. destruct (req_line r pos len u v); reflexivity.
  - cbn [app req_line]. rewrite zlen_cons. pose proof (zlen_nonneg w). destruct (Z.ltb_spec (zlen w + 1 + len) 2); [lia|].
    assert ((c =? 32) && match v with None => true | _ => false end = false) as ->. { destruct (Z.eqb_spec c 32) as [->|]; [|reflexivity]. destruct v; [reflexivity|]. destruct C; reflexivity. }
    destruct (Z.eqb_spec c 13); [easy|]. destruct (Z.eqb_spec c 10); [easy|]. replace (zlen w + 1 + len - 1) with (zlen w + len) by lia. rewrite IH, lpush_app. cbn [app]. do 2 f_equal. lia.
Qed.
Lemma req_line_ok e method uri version more len : is_eol e -> free [32; 10; 13] method -> free [32; 10; 13] uri -> free [10; 13] version -> 1 <= len ->
  exists z, req_line (method ++ 32 :: uri ++ 32 :: version ++ e ++ more) 0 (zlen method + 1 + zlen uri + 1 + zlen version + zlen e + len) None None =
    LOk (method ++ 0 :: uri ++ 0 :: version ++ 0 :: z) more (zlen method + 1 + zlen uri + 1 + zlen version + zlen e) len (Some (zlen method + 1)) (Some (zlen method + 1 + zlen uri + 1)) /\ zlen z + 1 = zlen e.
Proof.
  intros E M U V L. pose proof (zlen_nonneg method). pose proof (zlen_nonneg uri). pose proof (zlen_nonneg version).
  assert (1 <= zlen e) as Le by (destruct E as [-> | ->]; unfold zlen; cbn; lia).
  assert (forall l, free [32; 10; 13] l -> forall v : option Z, Forall (fun c => c <> 13 /\ c <> 10 /\ (c = 32 -> v <> None)) l) as Fr.
  { intros l F v. apply Forall_forall. intros c Ic. pose proof (proj1 (Forall_forall _ _) F c Ic) as (_ & N). cbn in N. split; [lia|]. split; [lia|]. intros ->. exfalso. apply N. auto. }
  replace (zlen method + 1 + zlen uri + 1 + zlen version + zlen e + len) with (zlen method + (1 + zlen uri + 1 + zlen version + zlen e + len)) by lia.
  rewrite req_skip by (try apply Fr; auto; lia). cbn [req_line]. destruct (Z.ltb_spec (1 + zlen uri + 1 + zlen version + zlen e + len) 2); [lia|]. change ((32 =? 32) && true) with true. cbn iota.
  replace (1 + zlen uri + 1 + zlen version + zlen e + len - 1) with (zlen uri + (1 + zlen version + zlen e + len)) by lia. rewrite req_skip by (try apply Fr; auto; lia). cbn [req_line].
  destruct (Z.ltb_spec (1 + zlen version + zlen e + len) 2); [lia|]. change ((32 =? 32) && true) with true. cbn iota.
  replace (1 + zlen version + zlen e + len - 1) with (zlen version + (zlen e + len)) by lia.
  rewrite req_skip; [| |lia].
  2:{ apply Forall_forall. intros c Ic. pose proof (proj1 (Forall_forall _ _) V c Ic) as (_ & N). cbn in N. split; [lia|]. split; [lia|]. discriminate. }
  destruct E as [-> | ->].
  - change (zlen CRLF) with 2. unfold CRLF. cbn [app req_line]. destruct (Z.ltb_spec (2 + len) 2); [lia|]. change (13 =? 32) with false. cbn [andb]. change (13 =? 13) with true. cbn iota.
    destruct (Z.ltb_spec (2 + len - 1) 2); [lia|]. change (10 =? 32) with false. cbn [andb]. change (10 =? 13) with false. change (10 =? 10) with true. cbn iota.
    exists [0]. split; [|reflexivity]. rewrite !lpush_app. cbn [lpush app]. f_equal; try lia; try (f_equal; lia); repeat (rewrite <- app_assoc; cbn [app]); reflexivity.
  - change (zlen LF) with 1. unfold LF. cbn [app req_line]. destruct (Z.ltb_spec (1 + len) 2); [lia|]. change (10 =? 32) with false. cbn [andb]. change (10 =? 13) with false. change (10 =? 10) with true. cbn iota.
    exists []. split; [|reflexivity]. rewrite !lpush_app. cbn [lpush app]. f_equal; try lia; try (f_equal; lia); repeat (rewrite <- app_assoc; cbn [app]); reflexivity.
Qed.

(** ** Fields *)
Lemma field_name_ok name r pos len : free [58; 32; 9; 10; 13] name -> zlen name + 1 <= len ->
  field_name (name ++ 58 :: r) pos len = NOk (name ++ [0]) r (pos + zlen name + 1) (len - zlen name - 1).
Proof.
  intros F. revert pos len. induction F as [|c name (A & B) F IH]; intros pos len L.
  - cbn [app field_name]. change (zlen []) with 0 in *. destruct (Z.ltb_spec len 1); [lia|]. change (58 =? 58) with true. cbn iota. f_equal; lia.
  - cbn [app field_name]. rewrite zlen_cons in *. pose proof (zlen_nonneg name). destruct (Z.ltb_spec len 1); [lia|]. cbn in B.
    destruct (Z.eqb_spec c 58); [intuition lia|]. destruct (Z.eqb_spec c 32); [intuition lia|]. destruct (Z.eqb_spec c 9); [intuition lia|]. cbn [orb]. destruct (Z.eqb_spec c 10); [intuition lia|]. destruct (Z.eqb_spec c 13); [intuition lia|]. cbn [orb].
    rewrite IH by lia. cbn [npush app]. f_equal; lia.
Qed.
Lemma value_blanks bl r pos len : blanks bl -> zlen bl <= len -> field_value (bl ++ r) pos len None = vpush bl (field_value r (pos + zlen bl) (len - zlen bl) None).
Proof.
  intros F. revert pos len. induction F as [|c bl A F IH]; intros pos len L.
  - cbn [app]. change (zlen []) with 0. rewrite Z.add_0_r, Z.sub_0_r. destruct (field_value r pos len None); reflexivity.
  - cbn [app field_value]. rewrite zlen_cons in *. pose proof (zlen_nonneg bl). destruct (Z.ltb_spec len 1); [lia|].
    assert (tabsp c = true) as -> by (unfold tabsp; destruct A as [-> | ->]; reflexivity). cbv zeta. destruct (Z.eqb_spec c 10); [lia|]. destruct (Z.eqb_spec c 13); [lia|].
    rewrite IH by lia. rewrite vpush_app. cbn [app]. f_equal. f_equal; lia.
Qed.
Lemma value_chars w r pos len p : free [10; 13] w -> zlen w <= len -> field_value (w ++ r) pos len (Some p) = vpush w (field_value r (pos + zlen w) (len - zlen w) (Some p)).
Proof.
  intros F. revert pos len. induction F as [|c w (_ & A) F IH]; intros pos len L.
  - cbn [app]. change (zlen []) with 0. rewrite Z.add_0_r, Z.sub_0_r. destruct (field_value r pos len (Some p)); reflexivity.
  - cbn [app field_value]. rewrite zlen_cons in *. pose proof (zlen_nonneg w). destruct (Z.ltb_spec len 1); [lia|]. cbn in A. cbv zeta.
    destruct (Z.eqb_spec c 10); [intuition lia|]. destruct (Z.eqb_spec c 13); [intuition lia|].
    rewrite IH by lia. rewrite vpush_app. cbn [app]. f_equal. f_equal; lia.
Qed.
(** the end of a value: a line end, and no blank behind it *)
Lemma value_eol e r pos len v : is_eol e -> zlen e + 1 <= len -> (exists c r', r = c :: r' /\ c <> 32 /\ c <> 9) ->
  exists z, field_value (e ++ r) pos len v = VOk (0 :: z) r (pos + zlen e) (len - zlen e) (match v with None => pos | Some p => p end) /\ zlen z + 1 = zlen e.
Proof.
  intros E L (c & r' & -> & C1 & C2). assert (tabsp c = false) as T by (unfold tabsp; lia). destruct E as [-> | ->].
  - change (zlen CRLF) with 2 in *. unfold CRLF. cbn [app field_value]. destruct (Z.ltb_spec len 1); [lia|]. change (tabsp 13) with false. cbv zeta. change (13 =? 10) with false. change (13 =? 13) with true. cbn iota.
    destruct (Z.ltb_spec len 2); [lia|]. change (10 =? 10) with true. cbn iota. destruct (Z.ltb_spec len 3); [lia|]. rewrite T. exists [10]. split; [|reflexivity]. destruct v; reflexivity.
  - change (zlen LF) with 1 in *. unfold LF. cbn [app field_value]. destruct (Z.ltb_spec len 1); [lia|]. change (tabsp 10) with false. cbv zeta. change (10 =? 10) with true. cbn iota.
    destruct (Z.ltb_spec len 2); [lia|]. rewrite T. exists []. split; [|reflexivity]. destruct v; reflexivity.
Qed.
Lemma field_value_ok e bl value r pos len : is_eol e -> blanks bl -> free [10; 13] value -> (forall c r, value = c :: r -> c <> 32 /\ c <> 9) ->
  zlen bl + zlen value + zlen e + 1 <= len -> (exists c r', r = c :: r' /\ c <> 32 /\ c <> 9) ->
  exists z, field_value (bl ++ value ++ e ++ r) pos len None = VOk (bl ++ value ++ 0 :: z) r (pos + zlen bl + zlen value + zlen e) (len - zlen bl - zlen value - zlen e) (pos + zlen bl) /\ zlen z + 1 = zlen e.
Proof.
  intros E B V N L R. pose proof (zlen_nonneg bl). pose proof (zlen_nonneg value). pose proof (zlen_nonneg e). rewrite value_blanks by (auto; lia).
  destruct value as [|c value].
  - cbn [app]. change (zlen []) with 0 in *. destruct (value_eol e r (pos + zlen bl) (len - zlen bl) None E) as (z & -> & Z0); [lia|exact R|]. exists z. split; [|exact Z0]. cbn [vpush]. f_equal; lia.
  - destruct (N c value eq_refl) as (N1 & N2). inversion V as [|? ? (_ & A) V']; subst. cbn in A. cbn [app field_value]. rewrite zlen_cons in *. pose proof (zlen_nonneg value). destruct (Z.ltb_spec (len - zlen bl) 1); [lia|].
    assert (tabsp c = false) as -> by (unfold tabsp; lia). cbv zeta. destruct (Z.eqb_spec c 10); [intuition lia|]. destruct (Z.eqb_spec c 13); [intuition lia|].
    rewrite value_chars by (auto; lia). destruct (value_eol e r (pos + zlen bl + 1 + zlen value) (len - zlen bl - 1 - zlen value) (Some (pos + zlen bl)) E) as (z & -> & Z0); [lia|exact R|]. exists z. split; [|exact Z0]. cbn [vpush app]. f_equal; lia.
Qed.
Lemma Fields_first e t fs e2 rest : is_eol e2 -> Fields e t fs -> exists c r, t ++ e2 ++ rest = c :: r /\ c <> 32 /\ c <> 9.
Proof.
  intros E2 F. destruct F as [|name bl value t fs Fn _ _ _ _].
  - destruct E2 as [-> | ->]; cbn; eexists _, _; (split; [reflexivity|lia]).
  - destruct name as [|c name]; cbn; eexists _, _; (split; [reflexivity|]); [lia|]. inversion Fn as [|? ? (_ & A) _]; subst. cbn in A. intuition lia.
Qed.
Lemma free_no_nul bad w : free bad w -> no_nul w.
Proof. intros F. eapply Forall_impl; [|exact F]. cbv beta. tauto. Qed.
Lemma fields_ok e t fs : is_eol e -> Fields e t fs -> forall n rest pos len, (length fs <= n)%nat -> zlen t + zlen e <= len ->
  exists w l, fields n (t ++ e ++ rest) pos len = FOk w (e ++ rest) l /\ zlen w = zlen t /\
  forall pre tail, zlen pre = pos -> strings (pre ++ w ++ tail) l = Some fs.
Proof.
  intros E F. induction F as [|name bl value t fs Fn Fb Fv Nv F IH]; intros n rest pos len Ln Ll.
  - exists [], []. split; [|split; [reflexivity|intros; reflexivity]]. cbn [app]. destruct E as [-> | ->].
    + unfold CRLF. destruct n; cbn [app fields]; change (13 =? 10) with false; change (13 =? 13) with true; cbn iota; change (zlen CRLF) with 2 in Ll; change (zlen []) with 0 in Ll; (destruct (Z.ltb_spec len 2); [lia|]); reflexivity.
    + unfold LF. destruct n; reflexivity.
  - destruct n as [|n]; [cbn in Ln; lia|]. cbn [length] in Ln.
    assert (1 <= zlen e) as Le by (destruct E as [-> | ->]; unfold zlen; cbn; lia).
    rewrite !zlen_app, zlen_cons, !zlen_app in Ll. pose proof (zlen_nonneg name). pose proof (zlen_nonneg bl). pose proof (zlen_nonneg value). pose proof (zlen_nonneg t).
    replace ((name ++ 58 :: bl ++ value ++ e ++ t) ++ e ++ rest) with (name ++ 58 :: bl ++ value ++ e ++ (t ++ e ++ rest)) by (repeat (rewrite <- app_assoc; cbn [app]); reflexivity).
    destruct (field_value_ok e bl value (t ++ e ++ rest) (pos + zlen name + 1) (len - zlen name - 1) E Fb Fv Nv) as (z & Ev & Z0); [lia|apply (Fields_first e t fs); auto|].
    destruct (IH n rest (pos + zlen name + 1 + zlen bl + zlen value + zlen e) (len - zlen name - 1 - zlen bl - zlen value - zlen e)) as (w & l & Ef & Lw & St); [lia|lia|].
    exists ((name ++ [0]) ++ (bl ++ value ++ 0 :: z) ++ w), ((pos, pos + zlen name + 1 + zlen bl) :: l).
    assert (exists c r, name ++ 58 :: bl ++ value ++ e ++ t ++ e ++ rest = c :: r /\ c <> 10 /\ c <> 13) as (c & r & Ec & C1 & C2).
    { destruct name as [|c name]; cbn; eexists _, _; (split; [reflexivity|]); [lia|]. inversion Fn as [|? ? (_ & A) _]; subst. cbn in A. intuition lia. }
    split; [|split].
    + cbn [fields]. rewrite (field_name_ok name _ pos len Fn) by lia. rewrite Ev, Ef. rewrite Ec. destruct (Z.eqb_spec c 10); [lia|]. destruct (Z.eqb_spec c 13); [lia|]. reflexivity.
    + repeat (rewrite ?zlen_app, ?zlen_cons). unfold zlen at 2. cbn [length]. lia.
    + intros pre tail Lp. cbn [strings].
      replace (pre ++ ((name ++ [0]) ++ (bl ++ value ++ 0 :: z) ++ w) ++ tail) with (pre ++ name ++ 0 :: (bl ++ value ++ 0 :: z ++ w ++ tail)) by (repeat (rewrite <- app_assoc; cbn [app]); reflexivity).
      rewrite (cstr_at_app pre name _ pos) by (try lia; eapply free_no_nul; eauto).
      replace (pre ++ name ++ 0 :: bl ++ value ++ 0 :: z ++ w ++ tail) with ((pre ++ name ++ 0 :: bl) ++ value ++ 0 :: (z ++ w ++ tail)) by (repeat (rewrite <- app_assoc; cbn [app]); reflexivity).
      rewrite (cstr_at_app (pre ++ name ++ 0 :: bl) value) by (try (rewrite !zlen_app, zlen_cons; lia); eapply free_no_nul; eauto).
      replace ((pre ++ name ++ 0 :: bl) ++ value ++ 0 :: z ++ w ++ tail) with ((pre ++ name ++ 0 :: bl ++ value ++ 0 :: z) ++ w ++ tail) by (repeat (rewrite <- app_assoc; cbn [app]); reflexivity).
      rewrite St; [reflexivity|]. repeat (rewrite ?zlen_app, ?zlen_cons). lia.
Qed.
(** too many of them *)
Lemma fields_many e t fs : is_eol e -> Fields e t fs -> forall n rest pos len, (n < length fs)%nat -> zlen t + zlen e <= len ->
  fields n (t ++ e ++ rest) pos len = FErr.
Proof.
  intros E F. induction F as [|name bl value t fs Fn Fb Fv Nv F IH]; intros n rest pos len Ln Ll; [cbn in Ln; lia|].
  assert (1 <= zlen e) as Le by (destruct E as [-> | ->]; unfold zlen; cbn; lia).
  rewrite !zlen_app, zlen_cons, !zlen_app in Ll. pose proof (zlen_nonneg name). pose proof (zlen_nonneg bl). pose proof (zlen_nonneg value). pose proof (zlen_nonneg t).
  replace ((name ++ 58 :: bl ++ value ++ e ++ t) ++ e ++ rest) with (name ++ 58 :: bl ++ value ++ e ++ (t ++ e ++ rest)) by (repeat (rewrite <- app_assoc; cbn [app]); reflexivity).
  assert (exists c r, name ++ 58 :: bl ++ value ++ e ++ t ++ e ++ rest = c :: r /\ c <> 10 /\ c <> 13) as (c & r & Ec & C1 & C2).
  { destruct name as [|c name]; cbn; eexists _, _; (split; [reflexivity|]); [lia|]. inversion Fn as [|? ? (_ & A) _]; subst. cbn in A. intuition lia. }
  destruct n as [|n].
  - rewrite Ec. cbn [fields]. destruct (Z.eqb_spec c 10); [lia|]. destruct (Z.eqb_spec c 13); [lia|]. reflexivity.
  - cbn [length] in Ln. destruct (field_value_ok e bl value (t ++ e ++ rest) (pos + zlen name + 1) (len - zlen name - 1) E Fb Fv Nv) as (z & Ev & Z0); [lia|apply (Fields_first e t fs); auto|].
    cbn [fields]. rewrite (field_name_ok name _ pos len Fn) by lia. rewrite Ev, IH by lia. rewrite Ec. destruct (Z.eqb_spec c 10); [lia|]. destruct (Z.eqb_spec c 13); [lia|]. reflexivity.
Qed.
(** the whole header *)
Lemma parse_ok e t method uri version fs body : Request e t method uri version fs ->
  if (length fs <=? MAX_HEADERS)%nat
  then exists m u v l, parse_http_header (t ++ body) = HOk (m ++ e ++ body ++ [0]) u v l /\ zlen m + zlen e = zlen t /\ let mem := m ++ e ++ body ++ [0] in
    cstr_at mem 0 = Some method /\ cstr_at mem u = Some uri /\ cstr_at mem v = Some version /\ strings mem l = Some fs
  else parse_http_header (t ++ body) = HErr.
Proof.
  intros (E & M & U & V & ft & F & ->). unfold parse_http_header. assert (1 <= zlen e) as Le by (destruct E as [-> | ->]; unfold zlen; cbn; lia).
  pose proof (zlen_nonneg ft). pose proof (zlen_nonneg body).
  destruct (req_line_ok e method uri version (ft ++ e ++ body ++ [0]) (zlen ft + zlen e + zlen body) E M U V) as (z & Er & Z0); [lia|].
  replace ((method ++ 32 :: uri ++ 32 :: version ++ e ++ ft ++ e) ++ body) with (method ++ 32 :: uri ++ 32 :: version ++ e ++ ft ++ e ++ body) by (repeat (rewrite <- app_assoc; cbn [app]); reflexivity).
  replace ((method ++ 32 :: uri ++ 32 :: version ++ e ++ ft ++ e ++ body) ++ [0]) with (method ++ 32 :: uri ++ 32 :: version ++ e ++ (ft ++ e ++ body ++ [0])) by (repeat (rewrite <- app_assoc; cbn [app]); reflexivity).
  replace (zlen (method ++ 32 :: uri ++ 32 :: version ++ e ++ ft ++ e ++ body)) with (zlen method + 1 + zlen uri + 1 + zlen version + zlen e + (zlen ft + zlen e + zlen body)) by (repeat (rewrite ?zlen_app, ?zlen_cons); lia).
  rewrite Er. destruct (Nat.leb_spec (length fs) MAX_HEADERS) as [Lf|Lf].
  - destruct (fields_ok e ft fs E F MAX_HEADERS (body ++ [0]) (zlen method + 1 + zlen uri + 1 + zlen version + zlen e) (zlen ft + zlen e + zlen body) Lf) as (w & l & Ef & Lw & St); [lia|].
    rewrite Ef. exists ((method ++ 0 :: uri ++ 0 :: version ++ 0 :: z) ++ w), (zlen method + 1), (zlen method + 1 + zlen uri + 1), l.
    split; [f_equal; rewrite <- !app_assoc; reflexivity|]. split; [repeat (rewrite ?zlen_app, ?zlen_cons); lia|]. cbv zeta.
    replace (((method ++ 0 :: uri ++ 0 :: version ++ 0 :: z) ++ w) ++ e ++ body ++ [0]) with ([] ++ method ++ 0 :: (uri ++ 0 :: version ++ 0 :: z ++ w ++ e ++ body ++ [0])) by (repeat (rewrite <- app_assoc; cbn [app]); reflexivity).
    split; [apply cstr_at_app; [reflexivity|eapply free_no_nul; eauto]|]. cbn [app].
    replace (method ++ 0 :: uri ++ 0 :: version ++ 0 :: z ++ w ++ e ++ body ++ [0]) with ((method ++ [0]) ++ uri ++ 0 :: (version ++ 0 :: z ++ w ++ e ++ body ++ [0])) by (repeat (rewrite <- app_assoc; cbn [app]); reflexivity).
    split; [apply cstr_at_app; [rewrite zlen_app; reflexivity|eapply free_no_nul; eauto]|].
    replace ((method ++ [0]) ++ uri ++ 0 :: (version ++ 0 :: z ++ w ++ e ++ body ++ [0])) with ((method ++ 0 :: uri ++ [0]) ++ version ++ 0 :: (z ++ w ++ e ++ body ++ [0])) by (repeat (rewrite <- app_assoc; cbn [app]); reflexivity).
    split; [apply cstr_at_app; [rewrite !zlen_app, zlen_cons, zlen_app; unfold zlen; cbn; lia|eapply free_no_nul; eauto]|].
    replace ((method ++ 0 :: uri ++ [0]) ++ version ++ 0 :: (z ++ w ++ e ++ body ++ [0])) with ((method ++ 0 :: uri ++ 0 :: version ++ 0 :: z) ++ w ++ (e ++ body ++ [0])) by (repeat (rewrite <- app_assoc; cbn [app]); reflexivity).
    apply St. repeat (rewrite ?zlen_app, ?zlen_cons). lia.
  - rewrite (fields_many e ft fs E F) by lia. reflexivity.
Qed.
