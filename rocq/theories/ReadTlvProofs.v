(** TLV constraints of consumers: what [schedule_tlvblock] computes. *)
From Verif Require Import Base BitsModel BitsProofs BufLemmas NetaddrModel ReaderModel ReadDispModel ReaderSpec ReaderProofs.

Definition tlv8 (t : tlv) : Prop := is_u8 (t_type t) /\ is_u8 (t_ext t).
Definition ce8 (e : centry) : Prop := is_u8 (ce_type e) /\ is_u8 (ce_ext e).

Lemma order_val a b : is_u8 a -> is_u8 b -> u16 (Z.lor (Z.shiftl a 8) b) = 256 * a + b.
Proof.
  intros Ha Hb. pose proof (lor_shift8 a b Ha Hb) as H.
  assert (u16 (Z.shiftl a 8) = Z.shiftl a 8) as E.
  { unfold u16, is_u8 in *. rewrite Z.shiftl_mul_pow2 by lia. apply Z.mod_small. lia. }
  rewrite E in H. rewrite H. unfold u16, is_u8 in *. apply Z.mod_small. lia.
Qed.

Lemma covers_match idx t : index_match idx t = covers idx t.
Proof. unfold index_match, covers. destruct (zmem _ _), (_ <=? _), (_ <=? _); reflexivity. Qed.

(** comparison of a TLV with an entry *)
Definition tcmp (t : tlv) (e : centry) : Z := cmp_types (Some t) (Some e).
Lemma tcmp_spec t e : tlv8 t -> ce8 e -> tcmp t e =
  if ce_match_ext e then 256 * (t_type t - ce_type e) + (t_ext t - ce_ext e) else t_type t - ce_type e.
Proof.
  intros [T1 T2] [E1 E2]. unfold tcmp, cmp_types, t_order, ce_order. destruct (ce_match_ext e); auto.
  rewrite !order_val by auto. lia.
Qed.
Lemma tcmp_wants t e : tlv8 t -> ce8 e -> wants e t = (tcmp t e =? 0).
Proof.
  intros T E. rewrite tcmp_spec by auto. destruct T as [T1 T2], E as [E1 E2]. unfold wants, is_u8 in *.
  destruct (ce_match_ext e); cbn [negb orb]; [|rewrite andb_true_r; destruct (Z.eqb_spec (t_type t) (ce_type e)), (Z.eqb_spec (t_type t - ce_type e) 0); auto; lia].
  destruct (Z.eqb_spec (t_type t) (ce_type e)), (Z.eqb_spec (t_ext t) (ce_ext e)), (Z.eqb_spec (256 * (t_type t - ce_type e) + (t_ext t - ce_ext e)) 0); cbn; auto; lia.
Qed.

Definition tle (t t' : tlv) : Prop := t_type t < t_type t' \/ (t_type t = t_type t' /\ t_ext t <= t_ext t').
Definition elt (e e' : centry) : Prop := ce_type e < ce_type e' \/
   (ce_type e = ce_type e' /\ ce_match_ext e = true /\ ce_match_ext e' = true /\ ce_ext e < ce_ext e').

Lemma tcmp_mono t t' e : tlv8 t -> tlv8 t' -> ce8 e -> tle t t' -> tcmp t e <= tcmp t' e.
Proof.
  intros T T' E H. rewrite !tcmp_spec by auto. destruct T, T', E. unfold is_u8, tle in *.
  destruct (ce_match_ext e); lia.
Qed.
Lemma tcmp_later t e e' : tlv8 t -> ce8 e -> ce8 e' -> tcmp t e <= 0 -> elt e e' -> tcmp t e' < 0.
Proof.
  intros T E E' H1 H2. rewrite tcmp_spec in * by auto. destruct T, E, E'. unfold is_u8, elt in *.
  destruct (ce_match_ext e), (ce_match_ext e'); destruct H2 as [?|(? & ? & ? & ?)]; try discriminate; lia.
Qed.

Lemma existsb_none {A} (f : A -> bool) l : Forall (fun x => f x = false) l -> existsb f l = false.
Proof. induction 1; cbn; auto. rewrite H, IHForall. auto. Qed.
Lemma filter_none {A} (f : A -> bool) l : Forall (fun x => f x = false) l -> filter f l = [].
Proof. induction 1; cbn; auto. rewrite H; auto. Qed.

Section V.
Context (idx : Z).
Notation VC := (violated_code idx).
Notation CH := (chain idx).

Lemma vc_none tlvs e : Forall (fun t => wants e t = false) tlvs -> VC tlvs e = ce_mandatory e /\ CH tlvs e = [].
Proof.
  intros F. unfold violated_code, chain.
  rewrite (existsb_none (wants e)) by auto.
  rewrite (existsb_none (fun t => wants e t && covers idx t && bad_length e t)).
  2:{ eapply Forall_impl; [|exact F]. cbn. intros ? ->. auto. }
  rewrite (existsb_none (fun t => wants e t && negb (covers idx t))).
  2:{ eapply Forall_impl; [|exact F]. cbn. intros ? ->. auto. }
  rewrite filter_none.
  2:{ eapply Forall_impl; [|exact F]. cbn. intros ? ->. auto. }
  cbn. rewrite andb_true_r, orb_false_r. auto.
Qed.
Lemma vc_skip t tlvs e : wants e t = false -> VC (t :: tlvs) e = VC tlvs e /\ CH (t :: tlvs) e = CH tlvs e.
Proof. intros E. unfold violated_code, chain. cbn. rewrite E. cbn. auto. Qed.
Lemma chain_cons t tlvs e : wants e t = true -> CH (t :: tlvs) e = (if covers idx t then [shown idx t] else []) ++ CH tlvs e.
Proof. intros E. unfold chain. cbn. rewrite E. cbn. destruct (covers idx t); auto. Qed.
Lemma vc_last t tlvs e : wants e t = true -> Forall (fun t => wants e t = false) tlvs ->
  VC (t :: tlvs) e = (ce_mandatory e && negb (covers idx t)) || (covers idx t && bad_length e t).
Proof.
  intros W F. unfold violated_code. cbn. rewrite W.
  rewrite (existsb_none (fun t => wants e t && covers idx t && bad_length e t)).
  2:{ eapply Forall_impl; [|exact F]. cbn. intros ? ->. auto. }
  rewrite (existsb_none (fun t => wants e t && negb (covers idx t))).
  2:{ eapply Forall_impl; [|exact F]. cbn. intros ? ->. auto. }
  cbn. rewrite !orb_false_r. auto.
Qed.
Lemma vc_more t t' tlvs e : wants e t = true -> wants e t' = true ->
  VC (t :: t' :: tlvs) e = ((ce_mandatory e && negb (covers idx t)) || (covers idx t && bad_length e t)) || VC (t' :: tlvs) e.
Proof.
  intros W W'. unfold violated_code. cbn [existsb]. rewrite W, W'. cbn.
  destruct (ce_mandatory e), (covers idx t), (covers idx t'), (bad_length e t), (bad_length e t'); cbn; auto;
  destruct (existsb (fun t0 => wants e t0 && negb (covers idx t0)) tlvs); cbn; auto.
Qed.
End V.

Lemma sorted_tl t l : tlvs_sorted (t :: l) -> Forall (tle t) l /\ tlvs_sorted l.
Proof. auto. Qed.
Lemma separate_tl e l : separate (e :: l) -> Forall (elt e) l /\ separate l.
Proof. auto. Qed.

(** a TLV behind the entry: none of the rest is wanted *)
Lemma none_wanted e t l : ce8 e -> Forall tlv8 (t :: l) -> tlvs_sorted (t :: l) -> tcmp t e > 0 ->
  Forall (fun t => wants e t = false) (t :: l).
Proof.
  intros E F S C. inversion F as [|? ? F1 F2]; subst. destruct S as [S1 S2].
  rewrite Forall_forall in *. intros y Hy. rewrite tcmp_wants by (auto; destruct Hy as [<-|]; auto).
  destruct (Z.eqb_spec (tcmp y e) 0); auto. exfalso. destruct Hy as [<-|Hy]; [lia|].
  pose proof (tcmp_mono t y e F1 (F2 y Hy) E (S1 y Hy)). lia.
Qed.

Section Q.
Context (cb : list event -> answer) (pkt : bytes) (c : consumer) (x : ctx) (idx : Z).

(** single TLVs are not dropped by this consumer *)
Hypothesis quiet : c_tlv c = true -> forall t tr, a_res (cb (EvTlv (c_id c) x t :: tr)) = OKAY.

Definition tlv_event (t : tlv) : list event :=
  if c_tlv c && covers idx t then [EvTlv (c_id c) x (shown idx t)] else [].
Definition tlv_st (t : tlv) (st : ds) : ds :=
  if c_tlv c && covers idx t then fst (call cb st (EvTlv (c_id c) x (shown idx t))) else st.

Lemma tlv_st_trace t st : d_trace (tlv_st t st) = tlv_event t ++ d_trace st.
Proof. unfold tlv_st, tlv_event. destruct (c_tlv c && covers idx t); auto. Qed.

Definition head_st (s : sl) : ds := match sl_tlvs s with t :: _ => tlv_st t (sl_st s) | [] => sl_st s end.
Definition hd_shown (s : sl) : list tlv := match sl_tlvs s with t :: r => (if covers idx t then shown idx t else t) :: r | [] => [] end.
Definition head_im (s : sl) : bool := match sl_tlvs s, sl_ents s with t :: _, e :: _ => covers idx t && (tcmp t e =? 0) | _, _ => false end.

Lemma cmp_shown t r e : cmp_types (hd_error ((if covers idx t then shown idx t else t) :: r)) e = cmp_types (Some t) e.
Proof. unfold shown. cbn. destruct (covers idx t), (t_multi t); auto. Qed.

(** one step without drops *)
Lemma step_quiet s : sched_step cb pkt c x idx s =
  let d := cmp_types (hd_error (sl_tlvs s)) (hd_error (sl_ents s)) in
  do '(failed, cur) <-
     (if d >=? 0 then
        match sl_ents s with
        | [] => Bad F_null
        | e :: _ => sched_match pkt e (hd_error (hd_shown s)) (sl_pos s) (head_im s) (sl_cur s) (sl_failed s)
        end
      else Ok (sl_failed s, sl_cur s));
  let '(pos, tdone, tlvs) :=
    match hd_shown s with
    | t :: r => if d <=? 0 then (S (sl_pos s), t :: sl_done s, r) else (sl_pos s, sl_done s, hd_shown s)
    | [] => (sl_pos s, sl_done s, hd_shown s)
    end in
  if cmp_types (hd_error tlvs) (hd_error (sl_ents s)) >? 0 then
    match sl_ents s with
    | [] => Bad F_null
    | e :: er =>
      Ok (OKAY, {| sl_pos := pos; sl_done := tdone; sl_tlvs := tlvs; sl_ents := er; sl_cur := ([], None);
                   sl_views := cur :: sl_views s; sl_failed := failed || (ce_mandatory e && negb (head_im s));
                   sl_st := head_st s |})
    end
  else Ok (OKAY, {| sl_pos := pos; sl_done := tdone; sl_tlvs := tlvs; sl_ents := sl_ents s; sl_cur := cur;
                    sl_views := sl_views s; sl_failed := failed; sl_st := head_st s |}).
Proof.
  unfold sched_step, head_im, hd_shown, head_st.
  destruct (sl_tlvs s) as [|t r] eqn:ET.
  - cbn [hd_error negb Z.eqb OKAY]. reflexivity.
  - rewrite covers_match. cbn zeta.
    assert ((if covers idx t && t_multi t then t_set_single t (option_map (fun v => v + (idx - t_idx1 t) * t_length t) (t_value t)) else t)
            = (if covers idx t then shown idx t else t)) as ->.
    { unfold shown. destruct (covers idx t), (t_multi t); auto. }
    unfold tlv_st. rewrite (andb_comm (c_tlv c)).
    destruct (covers idx t && c_tlv c) eqn:EC.
    + apply andb_prop in EC as [EC1 EC2]. rewrite EC1. unfold call. cbn [fst].
      rewrite (quiet EC2). change (OKAY =? DROP_TLV) with false. cbn [negb Z.eqb OKAY].
      pose proof (cmp_shown t r) as CS. rewrite EC1 in CS. rewrite (CS (hd_error (sl_ents s))). reflexivity.
    + cbn [negb Z.eqb OKAY]. rewrite cmp_shown. reflexivity.
Qed.

(** an event of the callback for single TLVs of this consumer *)
Definition is_tlv_event (e : event) : Prop := exists t, e = EvTlv (c_id c) x t.
Definition chains (s : sl) : list (list tlv) :=
  match sl_ents s with
  | [] => []
  | e :: er => (map snd (fst (sl_cur s)) ++ chain idx (sl_tlvs s) e) :: map (chain idx (sl_tlvs s)) er
  end.

Record sim (s s' : sl) : Prop := {
  sim_failed : sl_failed s' || existsb (violated_code idx (sl_tlvs s')) (sl_ents s') = sl_failed s || existsb (violated_code idx (sl_tlvs s)) (sl_ents s);
  sim_views : map (fun v => map snd (fst v)) (rev (sl_views s')) ++ chains s' = map (fun v => map snd (fst v)) (rev (sl_views s)) ++ chains s;
  sim_trace : exists evs, d_trace (sl_st s') = evs ++ d_trace (sl_st s) /\ Forall is_tlv_event evs;
  sim_exact : sl_ents s = [] -> sl_ents s' = [] /\
     rev (flat_map tlv_event (sl_tlvs s')) ++ d_trace (sl_st s') = rev (flat_map tlv_event (sl_tlvs s)) ++ d_trace (sl_st s);
  sim_8 : Forall tlv8 (sl_tlvs s'); sim_e8 : Forall ce8 (sl_ents s');
  sim_sorted : tlvs_sorted (sl_tlvs s'); sim_sep : separate (sl_ents s')
}.

Lemma rev_event t : rev (tlv_event t) = tlv_event t.
Proof. unfold tlv_event. destruct (c_tlv c && covers idx t); auto. Qed.

(** the TLV is passed, the entry stays *)
Lemma trace_pass t r st : rev (flat_map tlv_event r) ++ d_trace (tlv_st t st) = rev (flat_map tlv_event (t :: r)) ++ d_trace st.
Proof. cbn. rewrite tlv_st_trace, rev_app_distr, rev_event, <- app_assoc. reflexivity. Qed.

Lemma trace_some t st : exists evs, d_trace (tlv_st t st) = evs ++ d_trace st /\ Forall is_tlv_event evs.
Proof.
  exists (tlv_event t). rewrite tlv_st_trace. split; auto. unfold tlv_event, is_tlv_event.
  destruct (c_tlv c && covers idx t); constructor; eauto.
Qed.

Lemma existsb_skip t r l : Forall (fun e => wants e t = false) l ->
  existsb (violated_code idx (t :: r)) l = existsb (violated_code idx r) l /\
  map (chain idx (t :: r)) l = map (chain idx r) l.
Proof.
  induction 1 as [|e l E _ IH]; cbn [existsb map]; auto. destruct (vc_skip idx t r e E) as [-> ->].
  destruct IH as [-> ->]. auto.
Qed.

Lemma none_behind e l : ce8 e -> Forall tlv8 l -> tlvs_sorted l -> (forall t, hd_error l = Some t -> tcmp t e > 0) ->
  Forall (fun t => wants e t = false) l.
Proof.
  intros E F S H. destruct l as [|t l]; [constructor|]. apply none_wanted; auto.
Qed.

Lemma match_spec e t pos im cur failed r : sched_match pkt e t pos im cur failed = Ok r ->
  fst r = (failed || (ce_mandatory e && negb im) || (im && match t with Some t => bad_length e t | None => false end)) /\
  map snd (fst (snd r)) = map snd (fst cur) ++ (if im then match t with Some t => [t] | None => [] end else []).
Proof.
  unfold sched_match. destruct im; cbn [negb].
  - destruct t as [t|]; [|discriminate]. destruct (fst cur) as [|a l] eqn:EC.
    + unfold copy_value. destruct (ce_copy e && (t_length t >? 0)).
      * destruct (t_single t); [|discriminate]. destruct (copy_out _ _ _); [|discriminate]. cbn.
        intros [= <-]. cbn. unfold bad_length. auto.
      * cbn. intros [= <-]. cbn. unfold bad_length. auto.
    + intros [= <-]. cbn. rewrite map_app. cbn. unfold bad_length. auto.
  - intros [= <-]. cbn. rewrite orb_false_r, app_nil_r. auto.
Qed.

Lemma shown_twice t : shown idx (shown idx t) = shown idx t.
Proof. unfold shown. destruct t as [? ? ? ? ? ? ? ? m ?]. destruct m; reflexivity. Qed.
Lemma shown_head t r l :
  existsb (violated_code idx ((if covers idx t then shown idx t else t) :: r)) l = existsb (violated_code idx (t :: r)) l /\
  map (chain idx ((if covers idx t then shown idx t else t) :: r)) l = map (chain idx (t :: r)) l.
Proof.
  destruct (covers idx t) eqn:C; auto.
  assert (forall e, wants e (shown idx t) = wants e t) as W by (intros; unfold wants, shown; destruct (t_multi t); auto).
  assert (covers idx (shown idx t) = covers idx t) as K by (unfold covers, shown; destruct (t_multi t); auto).
  assert (forall e, bad_length e (shown idx t) = bad_length e t) as L by (intros; unfold bad_length, shown; destruct (t_multi t); auto).
  split.
  - induction l as [|e l IH]; cbn; auto. rewrite IH. f_equal. unfold violated_code. cbn [existsb]. rewrite W, K, L. auto.
  - apply map_ext. intros e. unfold chain. cbn [filter]. rewrite W, K. destruct (wants e t && covers idx t); auto.
    cbn. now rewrite shown_twice.
Qed.

Lemma step_sim s s' res : Forall tlv8 (sl_tlvs s) -> Forall ce8 (sl_ents s) -> tlvs_sorted (sl_tlvs s) -> separate (sl_ents s) ->
  (sl_tlvs s <> [] \/ sl_ents s <> []) ->
  sched_step cb pkt c x idx s = Ok (res, s') -> res = OKAY /\ sim s s'.
Proof.
  intros T8 E8 TS ES NE. rewrite step_quiet. cbn zeta.
  unfold hd_shown, head_im, head_st.
  destruct s as [pos done tlvs ents cur views failed st]. cbn [sl_tlvs sl_ents sl_pos sl_done sl_cur sl_views sl_failed sl_st] in *.
  destruct tlvs as [|t r].
  - (* no TLVs left *)
    destruct ents as [|e er]; [destruct NE as [N|N]; now elim N|]. cbn.
    intros [= <- <-]. split; auto. constructor; cbn [sl_failed sl_views sl_st sl_tlvs sl_ents sl_cur chains existsb].
    + destruct (vc_none idx [] e ltac:(constructor)) as [X _]. rewrite X.
      destruct failed, (ce_mandatory e); auto.
    + unfold chains. cbn [sl_ents sl_tlvs sl_cur fst rev]. rewrite map_app, <- app_assoc. cbn. rewrite app_nil_r.
      destruct er; auto.
    + exists []. auto.
    + discriminate.
    + auto.
    + now inversion E8.
    + auto.
    + now destruct ES.
  - inversion T8 as [|? ? T81 T82]; subst. destruct TS as [TS1 TS2].
    destruct ents as [|e er].
    + (* no entries left *)
      cbn [hd_error]. unfold cmp_types at 1 2. cbn [Z.geb Z.compare Z.leb obind].
      assert (cmp_types (hd_error r) None >? 0 = false) as X by (destruct r; reflexivity).
      rewrite X. intros [= <- <-]. split; auto.
      constructor; cbn [sl_failed sl_views sl_st sl_tlvs sl_ents sl_cur chains existsb]; auto; [apply trace_some|]. intros _. split; auto. apply trace_pass.
    + inversion E8 as [|? ? E81 E82]; subst. destruct ES as [ES1 ES2].
      cbn [hd_error]. fold (tcmp t e).
      assert (forall t', hd_error r = Some t' -> tlv8 t' /\ tle t t') as HR.
      { intros t' Hr. destruct r; [discriminate|]. inversion Hr; subst. inversion T82; subst. inversion TS1; subst. auto. }
      assert (forall o, cmp_types (hd_error r) (Some e) = o -> (r = [] /\ o = 1) \/ exists t' r', r = t' :: r' /\ o = tcmp t' e) as HC.
      { intros o <-. destruct r; cbn; eauto. }
      destruct (Z.ltb_spec (tcmp t e) 0) as [L|L].
      * (* TLV in front of the entry *)
        assert (tcmp t e >=? 0 = false) as -> by lia. cbn [obind].
        assert (tcmp t e <=? 0 = true) as -> by lia.
        assert (Forall (fun e => wants e t = false) (e :: er)) as NW.
        { constructor.
          - rewrite tcmp_wants by auto. lia.
          - rewrite Forall_forall in *. intros y Hy. rewrite tcmp_wants by auto.
            pose proof (tcmp_later t e y T81 E81 (E82 y Hy) ltac:(lia) (ES1 y Hy)). lia. }
        assert (tcmp t e =? 0 = false) as -> by lia. rewrite andb_false_r.
        destruct (Z.gtb_spec (cmp_types (hd_error r) (Some e)) 0) as [G|G].
        -- intros [= <- <-]. split; auto.
           assert (Forall (fun t => wants e t = false) r) as NB.
           { apply none_behind; auto. intros t' Hr. rewrite Hr in G. exact ltac:(unfold tcmp; lia). }
           destruct (vc_none idx r e NB) as [V1 V2]. destruct (existsb_skip t r _ NW) as [W1 W2].
           cbn [existsb map] in W1, W2.
           constructor; cbn [sl_failed sl_views sl_st sl_tlvs sl_ents sl_cur chains]; auto.
           ++ cbn [existsb]. rewrite W1. rewrite V1. cbn [negb]. rewrite andb_true_r, orb_assoc. auto.
           ++ unfold chains. cbn [sl_ents sl_tlvs sl_cur fst]. injection W2 as W2 W3. rewrite W2, W3, V2. cbn [rev].
              rewrite map_app, <- app_assoc, app_nil_r. cbn. destruct er; auto.
           ++ apply trace_some.
           ++ discriminate.
        -- intros [= <- <-]. split; auto. destruct (existsb_skip t r _ NW) as [W1 W2].
           constructor; cbn [sl_failed sl_views sl_st sl_tlvs sl_ents sl_cur]; auto.
           ++ now rewrite W1.
           ++ unfold chains. cbn [sl_ents sl_tlvs sl_cur fst]. cbn [map] in W2. injection W2 as W2 W3. now rewrite W2, W3.
           ++ apply trace_some.
           ++ discriminate.
           ++ now split.
      * assert (tcmp t e >=? 0 = true) as -> by lia.
        match goal with |- context [sched_match pkt e ?h pos ?im cur failed] => destruct (sched_match pkt e h pos im cur failed) as [[f cu]|] eqn:EM end; [|discriminate].
        apply match_spec in EM as [EM1 EM2]. cbn [fst snd] in EM1, EM2. cbn [obind].
        destruct (Z.eqb_spec (tcmp t e) 0) as [Z0|Z0].
        -- (* TLV of the type of the entry *)
           assert (wants e t = true) as W by (rewrite tcmp_wants by auto; lia).
           assert (Forall (fun e => wants e t = false) er) as NW.
           { rewrite Forall_forall in *. intros y Hy. rewrite tcmp_wants by auto.
             pose proof (tcmp_later t e y T81 E81 (E82 y Hy) ltac:(lia) (ES1 y Hy)). lia. }
           destruct (existsb_skip t r _ NW) as [W1 W2].
           assert (tcmp t e <=? 0 = true) as -> by lia. rewrite !andb_true_r in *.
           assert (f = failed || ((ce_mandatory e && negb (covers idx t)) || (covers idx t && bad_length e t))) as EF.
           { rewrite EM1. rewrite <- orb_assoc. f_equal. f_equal. unfold bad_length, shown. destruct (covers idx t), (t_multi t); auto. }
           assert (map snd (fst cu) = map snd (fst cur) ++ (if covers idx t then [shown idx t] else [])) as EC.
           { rewrite EM2. destruct (covers idx t); auto. }
           destruct (Z.gtb_spec (cmp_types (hd_error r) (Some e)) 0) as [G|G].
           ++ intros [= <- <-]. split; auto.
              assert (Forall (fun t => wants e t = false) r) as NB.
              { apply none_behind; auto. intros t' Hr. rewrite Hr in G. exact ltac:(unfold tcmp; lia). }
              constructor; cbn [sl_failed sl_views sl_st sl_tlvs sl_ents sl_cur]; auto.
              ** cbn [existsb]. rewrite W1, (vc_last idx t r e W NB), EF.
                 destruct failed, (ce_mandatory e), (covers idx t), (bad_length e t); auto.
              ** unfold chains. cbn [sl_ents sl_tlvs sl_cur fst rev]. rewrite W2, chain_cons by auto.
                 destruct (vc_none idx r e NB) as [_ ->]. rewrite app_nil_r, <- EC.
                 rewrite map_app, <- app_assoc. cbn. destruct er; auto.
              ** apply trace_some.
              ** discriminate.
           ++ destruct (HC _ eq_refl) as [(-> & X)|(t' & r' & -> & X)]; [lia|].
              destruct (HR t' eq_refl) as [R8 RL]. pose proof (tcmp_mono t t' e T81 R8 E81 RL).
              assert (wants e t' = true) as W' by (rewrite tcmp_wants by auto; lia).
              intros [= <- <-]. split; auto.
              constructor; cbn [sl_failed sl_views sl_st sl_tlvs sl_ents sl_cur]; auto.
              ** cbn [existsb] in W1 |- *. rewrite W1, (vc_more idx t t' r' e W W'), EF.
                 rewrite !orb_assoc. auto.
              ** unfold chains. cbn [sl_ents sl_tlvs sl_cur fst]. rewrite W2, (chain_cons idx t (t' :: r')) by auto.
                 rewrite EC, <- app_assoc. auto.
              ** apply trace_some.
              ** discriminate.
              ** now split.
        -- (* TLV behind the entry *)
           assert (tcmp t e <=? 0 = false) as -> by lia. rewrite !andb_false_r in *. rewrite cmp_shown. fold (tcmp t e).
           assert (tcmp t e >? 0 = true) as -> by lia.
           (* the TLV stays and its callback is called again for the next entry *)
           intros [= <- <-]. split; auto.
           assert (Forall tlv8 ((if covers idx t then shown idx t else t) :: r)) as T8'.
           { constructor; auto. unfold shown, tlv8 in *. destruct (covers idx t), (t_multi t); auto. }
           assert (Forall (fun t => wants e t = false) (t :: r)) as NB.
           { apply none_wanted; auto; [now split|lia]. }
           destruct (vc_none idx _ e NB) as [V1 V2].
           constructor; cbn [sl_failed sl_views sl_st sl_tlvs sl_ents sl_cur]; auto.
           ++ cbn [existsb]. rewrite V1, EM1. cbn [negb andb]. rewrite !andb_true_r, orb_false_r.
              rewrite (proj1 (shown_head t r er)). destruct failed, (ce_mandatory e); auto.
           ++ unfold chains. cbn [sl_ents sl_tlvs sl_cur fst rev]. rewrite V2, app_nil_r.
              pose proof (proj2 (shown_head t r er)) as SH. rewrite app_nil_r in EM2.
              rewrite <- EM2, map_app, <- app_assoc. cbn [map app].
              destruct er as [|e0 er0]; auto. cbn [map] in SH |- *. injection SH as SH1 SH2. now rewrite SH1, SH2.
           ++ apply trace_some.
           ++ discriminate.
           ++ split; auto. unfold shown. destruct (covers idx t), (t_multi t); auto.
Qed.

Lemma loop_sim fuel : forall s res s', Forall tlv8 (sl_tlvs s) -> Forall ce8 (sl_ents s) -> tlvs_sorted (sl_tlvs s) -> separate (sl_ents s) ->
  sched_loop cb pkt fuel c x idx s = Ok (res, s') ->
  res = OKAY /\ sl_failed s' = sl_failed s || existsb (violated_code idx (sl_tlvs s)) (sl_ents s) /\
  map (fun v => map snd (fst v)) (rev (sl_views s')) = map (fun v => map snd (fst v)) (rev (sl_views s)) ++ chains s /\
  (exists evs, d_trace (sl_st s') = evs ++ d_trace (sl_st s) /\ Forall is_tlv_event evs) /\
  (sl_ents s = [] -> d_trace (sl_st s') = rev (flat_map tlv_event (sl_tlvs s)) ++ d_trace (sl_st s)).
Proof.
  induction fuel as [|fuel IH]; intros s res s' T8 E8 TS ES; cbn [sched_loop].
  - destruct (sl_tlvs s) eqn:ET, (sl_ents s) eqn:EE; try discriminate. intros [= <- <-].
    unfold chains. rewrite EE. cbn. rewrite orb_false_r, app_nil_r. split; [auto|]. split; [auto|]. split; [auto|].
    split; [exists []; auto|auto].
  - assert ((sl_tlvs s = [] /\ sl_ents s = []) \/ (sl_tlvs s <> [] \/ sl_ents s <> [])) as [[ET EE]|NE].
    { destruct (sl_tlvs s), (sl_ents s); auto; right; try (left; discriminate); right; discriminate. }
    + rewrite ET, EE. intros [= <- <-].
      unfold chains. rewrite EE. cbn. rewrite orb_false_r, app_nil_r. split; [auto|]. split; [auto|]. split; [auto|].
      split; [exists []; auto|auto].
    + intros H.
      assert ((do '(res, s) <- sched_step cb pkt c x idx s; if negb (res =? OKAY) then Ok (res, s) else sched_loop cb pkt fuel c x idx s) = Ok (res, s')) as H'.
      { destruct (sl_tlvs s), (sl_ents s); auto. destruct NE as [N|N]; now elim N. }
      clear H. destruct (sched_step cb pkt c x idx s) as [[r1 s1]|] eqn:ES1; [|discriminate]. cbn [obind] in H'.
      destruct (step_sim s s1 r1 T8 E8 TS ES NE ES1) as [-> [F V T X A B C D]].
      cbn [negb Z.eqb OKAY] in H'. destruct (IH s1 res s' A B C D H') as (R1 & R2 & R3 & R4 & R5).
      split; [auto|]. split; [congruence|]. split; [congruence|]. split.
      * destruct T as (e1 & T1 & T2), R4 as (e2 & T3 & T4). exists (e2 ++ e1). rewrite T3, T1, app_assoc.
        split; auto. apply Forall_app; auto.
      * intros E. destruct (X E) as [X1 X2]. rewrite <- X2. apply R5, X1.
Qed.

Theorem schedule_char tlvs st res tlvs' st' :
  Forall tlv8 tlvs -> Forall ce8 (c_entries c) -> tlvs_sorted tlvs -> separate (c_entries c) ->
  schedule_tlvblock cb pkt c x tlvs idx st = Ok (res, tlvs', st') ->
  let failed := existsb (violated_code idx tlvs) (c_entries c) in
  exists evs views,
    d_trace st' = (if if failed then c_failed c else c_block c then [EvBlock (c_id c) x failed views] else []) ++ evs ++ d_trace st /\
    Forall is_tlv_event evs /\
    map fst views = map (chain idx tlvs) (c_entries c) /\
    (c_entries c = [] -> evs = rev (flat_map tlv_event tlvs)).
Proof.
  intros T8 E8 TS ES. unfold schedule_tlvblock.
  destruct (sched_loop _ _ _ _ _ _ _) as [[r s]|] eqn:EL; [|discriminate]. cbn [obind].
  apply loop_sim in EL as (-> & F & V & (evs & T1 & T2) & X); auto. cbn [sl_failed sl_tlvs sl_ents sl_views sl_st chains rev map app orb negb Z.eqb OKAY] in *.
  assert (map fst (views_of (rev (sl_views s))) = map (chain idx tlvs) (c_entries c)) as EV.
  { unfold views_of. rewrite map_map. cbn [fst]. rewrite V. unfold chains. cbn. destruct (c_entries c); auto. }
  assert (c_entries c = [] -> evs = rev (flat_map tlv_event tlvs)) as EX.
  { intros E. specialize (X E). rewrite T1 in X. now apply app_inv_tail in X. }
  intros H. cbn zeta. exists evs, (views_of (rev (sl_views s))). split; [|auto].
  rewrite <- F. rewrite <- T1. destruct (sl_failed s).
  - rewrite andb_false_r in H. destruct (c_failed c); cbn in H |- *.
    + destruct (_ =? DROP_TLV) in H; injection H as <- <- <-; reflexivity.
    + injection H as <- <- <-; reflexivity.
  - rewrite andb_false_r in H. destruct (c_block c); cbn in H |- *.
    + destruct (_ =? DROP_TLV) in H; injection H as <- <- <-; reflexivity.
    + injection H as <- <- <-; reflexivity.
Qed.
End Q.

(** ** The lists are sorted *)
Lemma Forall_insert (P : tlv -> Prop) t l : P t -> Forall P l -> Forall P (tlv_insert t l).
Proof.
  intros H F. induction F as [|y l Hy F IH]; cbn; auto. destruct (_ <? _); auto.
Qed.
Fixpoint osorted (l : list tlv) : Prop :=
  match l with [] => True | t :: l' => Forall (fun t' => t_order t <= t_order t') l' /\ osorted l' end.
Lemma osorted_insert t l : osorted l -> osorted (tlv_insert t l).
Proof.
  induction l as [|y l IH]; cbn [osorted tlv_insert]; [split; auto|]. intros [H1 H2].
  destruct (Z.ltb_spec (t_order t) (t_order y)).
  - cbn. split; auto. constructor; [lia|]. eapply Forall_impl; [|exact H1]. cbn. intros; lia.
  - cbn. split; auto. apply Forall_insert; auto. 
Qed.
Lemma osorted_sorted l : Forall tlv8 l -> osorted l -> tlvs_sorted l.
Proof.
  induction 1 as [|t l H F IH]; cbn; auto. intros [S1 S2]. split; auto.
  rewrite Forall_forall in *. intros y Hy. specialize (S1 y Hy). destruct (F y Hy) as [A1 A2], H as [B1 B2].
  unfold t_order in S1. rewrite !order_val in S1 by auto. unfold is_u8 in *. lia.
Qed.
Lemma tlvblock_loop_sorted alloc pkt fuel : forall ptr end_ eob ac prev acc m r p l m',
  osorted acc -> tlvblock_loop alloc pkt fuel ptr end_ eob ac prev acc m = Ok (r, p, l, m') -> osorted l.
Proof.
  induction fuel as [|fuel IH]; intros ptr end_ eob ac prev acc m r p l m' S H; cbn [tlvblock_loop] in H.
  - destruct (_ <=? _); [|discriminate]. injection H as <- <- <- <-; auto.
  - destruct (_ <=? _); [injection H as <- <- <- <-; auto|].
    destruct (parse_tlv _ _ _ _ _) as [[[r1 p1] t]|]; [|discriminate]. cbn [obind] in H.
    destruct (negb _); [injection H as <- <- <- <-; auto|].
    destruct (negb _); [injection H as <- <- <- <-; auto|].
    eapply IH; [|exact H]. apply osorted_insert; auto.
Qed.
Lemma parse_tlvblock_osorted alloc pkt ptr eob ac m r p l m' :
  parse_tlvblock alloc pkt ptr eob ac m = Ok (r, p, l, m') -> osorted l.
Proof.
  unfold parse_tlvblock. intros H.
  destruct (get_u16 _ _ _ _) as [[[len p1] e]|]; [|discriminate]. cbn [obind] in H.
  destruct (_ >? _); [injection H as <- <- <- <-; exact I|].
  destruct (tlvblock_loop _ _ _ _ _ _ _ _ _ _) as [[[[r2 p2] acc] m2]|] eqn:E; [|discriminate]. cbn [obind] in H.
  destruct (negb _); injection H as <- <- <- <-; [exact I|].
  eapply tlvblock_loop_sorted; [|exact E]. exact I.
Qed.
Lemma parse_tlvblock_sorted alloc pkt ptr eob ac m r p l m' :
  all_bytes pkt -> 0 <= ptr -> eob <= zlen pkt -> is_u8 ac ->
  parse_tlvblock alloc pkt ptr eob ac m = Ok (r, p, l, m') -> Forall tlv8 l /\ tlvs_sorted l.
Proof.
  intros B H0 H1 H2 H. pose proof (parse_tlvblock_osorted _ _ _ _ _ _ _ _ _ _ H) as S.
  pose proof (parse_tlvblock_wp alloc pkt B ptr ptr eob ac m ltac:(lia) H1 H2) as W. rewrite H in W. cbn in W.
  destruct W as (_ & _ & _ & W & _).
  assert (Forall tlv8 l) as F.
  { eapply Forall_impl; [|exact W]. intros t [[T1 T2 _ _ _ _] _]. split; auto. }
  split; auto. apply osorted_sorted; auto.
Qed.

(** entries that can not be served by the same TLV *)
Definition disjoint (e e' : centry) : Prop :=
  ce_type e <> ce_type e' \/ (ce_match_ext e = true /\ ce_match_ext e' = true /\ ce_ext e <> ce_ext e').
Lemma disjoint_sym e e' : disjoint e e' -> disjoint e' e.
Proof. unfold disjoint. intros [H|(H1 & H2 & H3)]; [left; lia|right; repeat split; auto]. Qed.

Fixpoint esorted (l : list centry) : Prop :=
  match l with [] => True | t :: l' => Forall (fun t' => ce_order t <= ce_order t' /\ disjoint t t') l' /\ esorted l' end.

Lemma ce_insert_Forall (P : centry -> Prop) e l : P e -> Forall P l -> Forall P (ce_insert e l).
Proof.
  intros H F. induction F as [|y l Hy F IH]; cbn [ce_insert]; auto. destruct (existsb _ _); auto.
Qed.
Lemma ce_insert_sorted e l : Forall (disjoint e) l -> esorted l -> esorted (ce_insert e l).
Proof.
  induction l as [|y l IH]; intros D S; cbn [ce_insert]; [split; cbn; auto|].
  destruct S as [S1 S2]. inversion D as [|? ? D1 D2]; subst.
  destruct (existsb _ _) eqn:E.
  - cbn [esorted]. split; auto. apply ce_insert_Forall; auto. split; [|apply disjoint_sym; auto].
    apply existsb_exists in E as (z & Hz & L). rewrite Forall_forall in S1. destruct Hz as [<-|Hz]; [lia|].
    destruct (S1 z Hz). lia.
  - cbn [esorted]. split; [|split; auto]. rewrite Forall_forall in *. intros z Hz. split; [|auto].
    destruct (Z.leb_spec (ce_order z) (ce_order e)) as [L|L]; [|lia]. exfalso.
    assert (existsb (fun y => ce_order y <=? ce_order e) (y :: l) = true) as X; [|congruence].
    apply existsb_exists. exists z. split; auto. lia.
Qed.
Lemma disjoint_fix e e' : disjoint e e' -> disjoint (ce_fix e) e'.
Proof. unfold ce_fix. destruct (_ >? _); auto. Qed.
Lemma esorted_separate l : Forall ce8 l -> esorted l -> separate l.
Proof.
  induction 1 as [|e l H F IH]; cbn; auto. intros [S1 S2]. split; auto.
  rewrite Forall_forall in *. intros y Hy. destruct (S1 y Hy) as [S3 S4]. destruct (F y Hy) as [A1 A2], H as [B1 B2].
  unfold ce_order in S3. rewrite !order_val in S3 by auto. unfold is_u8, disjoint in *.
  destruct S4 as [S4|(S4 & S5 & S6)]; [left; lia|]. destruct (Z.lt_ge_cases (ce_type e) (ce_type y)); [auto|].
  right. repeat split; auto; lia.
Qed.
Lemma sort_entries_ok es : Forall ce8 es -> ForallOrdPairs disjoint es ->
  Forall ce8 (sort_entries es) /\ separate (sort_entries es).
Proof.
  intros F P. unfold sort_entries.
  assert (forall acc, Forall ce8 acc -> esorted acc -> Forall (fun e => Forall (disjoint e) acc) es ->
     Forall ce8 (fold_left (fun acc e => ce_insert (ce_fix e) acc) es acc) /\
     esorted (fold_left (fun acc e => ce_insert (ce_fix e) acc) es acc)) as G.
  { revert F P. induction es as [|e es IH]; intros F P acc A S D; cbn [fold_left]; auto.
    inversion F as [|? ? F1 F2]; subst. inversion P as [|? ? P1 P2]; subst. inversion D as [|? ? D1 D2]; subst.
    apply IH; auto.
    - apply ce_insert_Forall; auto. unfold ce_fix. destruct (_ >? _); auto.
    - apply ce_insert_sorted; auto. eapply Forall_impl; [|exact D1]. intros; now apply disjoint_fix.
    - rewrite Forall_forall in *. intros y Hy. apply ce_insert_Forall; [|apply (D2 y Hy)].
      apply disjoint_sym, disjoint_fix, (P1 y Hy). }
  destruct (G [] ltac:(constructor) I) as [G1 G2].
  { rewrite Forall_forall. intros; constructor. }
  split; auto. apply esorted_separate; auto.
Qed.

(** the rule of the code is the documented one if no TLV of a mandatory type is for other indices only *)
Lemma violated_same idx tlvs e :
  (ce_mandatory e = true -> Forall (fun t => wants e t = true -> covers idx t = true) tlvs) ->
  violated_code idx tlvs e = violated idx tlvs e.
Proof.
  intros H. unfold violated_code, violated. f_equal. destruct (ce_mandatory e); auto. specialize (H eq_refl). cbn.
  induction H as [|t l Ht F IH]; cbn; auto. destruct (wants e t) eqn:W; cbn.
  - rewrite (Ht eq_refl). cbn. clear IH.
    apply existsb_none. eapply Forall_impl; [|exact F]. cbn. intros a Ha. destruct (wants e a); auto. now rewrite Ha.
  - apply IH.
Qed.
(** a violation of the documented rule is always noticed *)
Lemma violated_noticed idx tlvs e : violated idx tlvs e = true -> violated_code idx tlvs e = true.
Proof.
  unfold violated_code, violated. intros H. apply orb_prop in H as [H|H]; [|rewrite H; apply orb_true_r].
  apply andb_prop in H as [-> H]. cbn. apply orb_true_iff. left.
  destruct (existsb (wants e) tlvs) eqn:E; auto. cbn. apply existsb_exists in E as (t & Ht & W).
  apply existsb_exists. exists t. split; auto. rewrite W. cbn.
  destruct (covers idx t) eqn:C; auto. exfalso.
  assert (existsb (fun t => wants e t && covers idx t) tlvs = true) as X; [|rewrite X in H; discriminate].
  apply existsb_exists. exists t. rewrite W, C. auto.
Qed.
