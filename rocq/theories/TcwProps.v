(** C123-C125: what TC messages tell about neighbors and attached networks. *)
From Verif Require Import Base BufLemmas CodecModel CodecSpec CodecProofs.
From Verif Require DomModel DomSpec DomProofs DomMetric.
From Verif Require Import TcModel TcwModel.

(** ** What is expected *)
(** the metric a receiver gets for [m]: the smallest one that can be sent and is
    not smaller (C07) *)
Definition rounded (m r : Z) : Prop := exists code, best_metric_code m code /\ r = metric_value code.
Definition valid (m : Z) : Prop := METRIC_MIN <= m <= METRIC_MAX.
(** the LINK_METRIC TLVs of an address, as the receiver gets them *)
Definition mets (l : list wtlv) : list (Z * (Z * Z)) :=
  flat_map (fun t => match t with WMetric e b0 b1 => [(e, (b0, b1))] | _ => [] end) l.

Lemma same_meaning l : forall tmp, 0 <= tmp -> (forall x, In x l -> l_active x = true -> 0 < l_dist x) ->
  (same_distance tmp l = true <-> exists d, (0 < tmp -> d = tmp) /\ forall x, In x l -> l_active x = true -> l_dist x = d).
Proof.
  induction l as [|x l IH]; intros tmp T P; cbn [same_distance].
  - split; [|auto]. intros _. exists tmp. split; [auto|]. intros x [].
  - assert (forall y, In y l -> l_active y = true -> 0 < l_dist y) as P' by (intros; apply P; auto; right; assumption).
    destruct (l_active x) eqn:A.
    + pose proof (P x (or_introl eq_refl) A) as PX. destruct (Z.eqb_spec tmp 0) as [->|N].
      * rewrite Z.eqb_refl. rewrite (IH (l_dist x)) by (lia || exact P'). split; intros (d & D1 & D2); exists d.
        -- split; [lia|]. intros y [<-|Y]; [intros _; symmetry; auto|apply D2; exact Y].
        -- split; [|intros y Y; apply D2; right; exact Y]. intros _. symmetry. apply D2; [left; reflexivity|exact A].
      * destruct (Z.eqb_spec tmp (l_dist x)) as [Q|Q].
        -- rewrite (IH tmp T P'). split; intros (d & D1 & D2); exists d; (split; [exact D1|]).
           ++ intros y [<-|Y]; [intros _; rewrite D1 by lia; congruence|apply D2; exact Y].
           ++ intros y Y; apply D2; right; exact Y.
        -- split; [discriminate|]. intros (d & D1 & D2). exfalso. apply Q. rewrite (D2 x (or_introl eq_refl) A). symmetry. apply D1. lia.
    + rewrite (IH tmp T P'). split; intros (d & D1 & D2); exists d; (split; [exact D1|]).
      * intros y [<-|Y]; [congruence|apply D2; exact Y].
      * intros y Y; apply D2; right; exact Y.
Qed.

Lemma zget_In {X} (l : list X) i x : zget l i = Some x -> In x l.
Proof. unfold zget. destruct (i <? 0); [discriminate|]. apply nth_error_In. Qed.
Lemma nd_snoc (l : list Z) x : NoDup l -> ~ In x l -> NoDup (l ++ [x]).
Proof.
  intros N. induction N as [|y l Y N IH]; intros X; cbn; [constructor; [intros []|constructor]|]. cbn in X. constructor; [|apply IH; tauto].
  intros Z. apply in_app_or in Z as [Z|[Z|[]]]; [tauto|]. subst. tauto.
Qed.
Lemma firstn_get {A} (l : list A) n i x : zget l i = Some x -> 0 <= i < n -> zget (firstn (Z.to_nat n) l) i = Some x.
Proof. intros H B. rewrite zget_firstn. destruct (Z.ltb_spec i (Z.of_nat (Z.to_nat n))); [exact H|lia]. Qed.
Section P.
Context (ds : list dom) (fam : Z -> bool) (routable : Z -> bool) (nhdp_conf : bool) (plen : Z -> Z) (src_value : Z -> bytes).
Hypothesis Ok : DomSpec.doms_ok ds.

(** the neighbor has selected this router as MPR for domain [i] *)
Definition selects (nb : tnb) (i : Z) : Prop := 0 <= i < zlen ds /\ zget (b_mpr nb) i = Some true.
(** address [a] of the neighbor is to be in the TC *)
Definition announced (nb : tnb) (a : Z) : Prop :=
  b_sym nb = true /\ (exists i, selects nb i) /\ In a (b_addrs nb) /\ fam a = true /\
  (b_orig nb = Some a \/ (nhdp_conf = true /\ routable a = true)).
(** the flags: 1 originator, 2 routable *)
Definition kind_of (nb : tnb) (a v : Z) : Prop :=
  0 <= v < 4 /\ (Z.testbit v 0 = true <-> b_orig nb = Some a) /\ (Z.testbit v 1 = true <-> routable a = true).
(** costs for domain [i]: outgoing and incoming; without valid incoming metric
    none is told *)
Definition cost_out (nb : tnb) (i c : Z) : Prop :=
  exists mi mo, zget (b_in nb) i = Some mi /\ zget (b_out nb) i = Some mo /\
  ((selects nb i /\ valid mi /\ valid mo /\ rounded mo c) \/ (~ (selects nb i /\ valid mi /\ valid mo) /\ c = METRIC_INFINITE)).
Definition cost_in (nb : tnb) (i c : Z) : Prop :=
  exists mi, zget (b_in nb) i = Some mi /\
  ((selects nb i /\ valid mi /\ rounded mi c) \/ (~ (selects nb i /\ valid mi) /\ c = METRIC_INFINITE)).
(** sizes of the arrays; metrics are 32 bit *)
Definition nb_shape (nb : tnb) : Prop :=
  zlen (b_mpr nb) = MAXDOM /\ zlen (b_in nb) = MAXDOM /\ zlen (b_out nb) = MAXDOM /\ Forall is_u32 (b_in nb) /\ Forall is_u32 (b_out nb).
Definition lan_shape (e : lent) : Prop := zlen (l_data e) = MAXDOM /\ Forall (fun x => is_u32 (l_metric x)) (l_data e).
Definition laddr (e : lent) : Z := fst (lan_address plen (l_key e)).

(** ** Metrics *)
Lemma dom_len : 1 <= zlen ds <= 4. Proof. apply Ok. Qed.
Lemma flags_in b : 0 <= b < 16 -> metric_has_flag (metric_set_flag b DomModel.INCOMING_NEIGH) DomModel.INCOMING_NEIGH = true /\
  metric_has_flag (metric_set_flag b DomModel.INCOMING_NEIGH) DomModel.OUTGOING_NEIGH = false.
Proof.
  intros B. destruct (DomMetric.set_flag_ok b DomModel.INCOMING_NEIGH) as (_ & _ & F); [unfold is_u8; lia|cbn; auto|].
  rewrite !F by (cbn; auto). rewrite !DomMetric.noflag by (assumption || (cbn; auto)). auto.
Qed.
Lemma flags_out b : 0 <= b < 16 -> metric_has_flag (metric_set_flag b DomModel.OUTGOING_NEIGH) DomModel.INCOMING_NEIGH = false /\
  metric_has_flag (metric_set_flag b DomModel.OUTGOING_NEIGH) DomModel.OUTGOING_NEIGH = true.
Proof.
  intros B. destruct (DomMetric.set_flag_ok b DomModel.OUTGOING_NEIGH) as (_ & _ & F); [unfold is_u8; lia|cbn; auto 6|].
  rewrite !F by (cbn; auto 6). rewrite !DomMetric.noflag by (assumption || (cbn; auto 6)). auto.
Qed.
Lemma decode_flag b0 b1 f : 0 <= b0 < 16 -> is_u8 b1 -> DomMetric.isflag f -> metric_decode (metric_set_flag b0 f) b1 = metric_value (256 * b0 + b1).
Proof.
  intros B0 B1 F. destruct (DomMetric.set_flag_ok b0 f) as (L & _ & _); [unfold is_u8; lia|exact F|].
  assert (metric_decode (metric_set_flag b0 f) b1 = metric_decode b0 b1) as -> by (unfold metric_decode; now rewrite L).
  rewrite metric_decode_spec by (try exact B1; unfold is_u8; lia). now rewrite Z.mod_small by lia.
Qed.
Lemma in_isflag : DomMetric.isflag DomModel.INCOMING_NEIGH. Proof. cbn. auto. Qed.
Lemma out_isflag : DomMetric.isflag DomModel.OUTGOING_NEIGH. Proof. cbn. auto 6. Qed.
Lemma flag_differs i0 o0 : 0 <= i0 < 16 -> 0 <= o0 < 16 -> (metric_set_flag i0 DomModel.INCOMING_NEIGH =? o0) = false.
Proof.
  intros I0 O0. apply Z.eqb_neq. intros E. destruct (flags_in i0 I0) as [F _]. rewrite E in F. rewrite DomMetric.noflag in F by (assumption || exact in_isflag). discriminate.
Qed.

(** results of encoding, without loop and error cases *)
Lemma encode_cases m : is_u32 m ->
  (valid m /\ exists b0 b1, metric_encode m = MetricOk b0 b1 /\ 0 <= b0 < 16 /\ is_u8 b1 /\ rounded m (metric_value (256 * b0 + b1))) \/
  (~ valid m /\ (metric_encode m = MetricErr \/ (METRIC_MAX < m /\ metric_encode m = MetricOk 15 255))).
Proof.
  intros U. destruct (Z_le_dec METRIC_MIN m) as [A|A]; [destruct (Z_le_dec m METRIC_MAX) as [B|B]|].
  - left. split; [split; assumption|]. destruct (metric_encode_ok m (conj A B)) as (b0 & b1 & E & B0 & B1 & R). exists b0, b1. repeat (split; [assumption|]). eexists. split; [exact R|reflexivity].
  - right. split; [unfold valid; lia|]. unfold metric_encode. destruct (Z.ltb_spec m METRIC_MIN); [lia|]. rewrite Z.geb_leb. destruct (Z.leb_spec METRIC_INFINITE m); [left; reflexivity|].
    cbn [orb]. destruct (Z.gtb_spec m METRIC_MAX); [|lia]. right. split; [lia|reflexivity].
  - right. split; [unfold valid; lia|]. left. apply metric_encode_err; [exact U|lia].
Qed.

Lemma zget_here (pre : list dom) d l : zget (pre ++ d :: l) (zlen pre) = Some d.
Proof. rewrite zget_app. destruct (Z.ltb_spec (zlen pre) (zlen pre)); [lia|]. rewrite Z.sub_diag. reflexivity. Qed.
Lemma ext_here pre d l : ds = pre ++ d :: l -> DomModel.get_by_ext 0 ds (DomModel.d_ext d) = Some (zlen pre).
Proof.
  intros E. rewrite (DomProofs.get_by_ext_at ds (proj1 (proj2 Ok)) 0 (zlen pre) d); [f_equal; lia|]. rewrite E. apply zget_here.
Qed.

Lemma read_in pre d l b0 b1 r ci co : ds = pre ++ d :: l -> 0 <= b0 < 16 -> is_u8 b1 -> zlen ci = MAXDOM ->
  exists ci', zset ci (zlen pre) (metric_value (256 * b0 + b1)) = Some ci' /\ zlen ci' = MAXDOM /\
  read_costs ds ((DomModel.d_ext d, (metric_set_flag b0 DomModel.INCOMING_NEIGH, b1)) :: r) ci co = read_costs ds r ci' co.
Proof.
  intros E B0 B1 L. pose proof dom_len as DL. assert (zlen ds = zlen pre + (zlen l + 1)) as LE by (rewrite E, zlen_app, zlen_cons; reflexivity).
  pose proof (zlen_nonneg pre). pose proof (zlen_nonneg l).
  destruct (zset_Some ci (zlen pre) (metric_value (256 * b0 + b1))) as [ci' S1]; [rewrite L; change MAXDOM with 4; lia|].
  exists ci'. split; [exact S1|]. split; [rewrite (zset_len _ _ _ _ S1); exact L|].
  cbn [read_costs]. rewrite (ext_here pre d l E). destruct (flags_in b0 B0) as [-> ->]. rewrite decode_flag by (assumption || exact in_isflag). rewrite S1. reflexivity.
Qed.
Lemma read_out pre d l b0 b1 r ci co : ds = pre ++ d :: l -> 0 <= b0 < 16 -> is_u8 b1 -> zlen co = MAXDOM ->
  exists co', zset co (zlen pre) (metric_value (256 * b0 + b1)) = Some co' /\ zlen co' = MAXDOM /\
  read_costs ds ((DomModel.d_ext d, (metric_set_flag b0 DomModel.OUTGOING_NEIGH, b1)) :: r) ci co = read_costs ds r ci co'.
Proof.
  intros E B0 B1 L. pose proof dom_len as DL. assert (zlen ds = zlen pre + (zlen l + 1)) as LE by (rewrite E, zlen_app, zlen_cons; reflexivity).
  pose proof (zlen_nonneg pre). pose proof (zlen_nonneg l).
  destruct (zset_Some co (zlen pre) (metric_value (256 * b0 + b1))) as [co' S1]; [rewrite L; change MAXDOM with 4; lia|].
  exists co'. split; [exact S1|]. split; [rewrite (zset_len _ _ _ _ S1); exact L|].
  cbn [read_costs]. rewrite (ext_here pre d l E). destruct (flags_out b0 B0) as [-> ->]. rewrite decode_flag by (assumption || exact out_isflag). rewrite S1. reflexivity.
Qed.

(** what becomes of an old cost *)
Definition upd_out (nb : tnb) (i : Z) (old new : option Z) : Prop :=
  exists mi mo, zget (b_in nb) i = Some mi /\ zget (b_out nb) i = Some mo /\
  ((selects nb i /\ valid mi /\ valid mo /\ exists c, new = Some c /\ rounded mo c) \/ (~ (selects nb i /\ valid mi /\ valid mo) /\ new = old)).
Definition upd_in (nb : tnb) (i : Z) (old new : option Z) : Prop :=
  exists mi, zget (b_in nb) i = Some mi /\
  ((selects nb i /\ valid mi /\ exists c, new = Some c /\ rounded mi c) \/ (~ (selects nb i /\ valid mi) /\ new = old)).

Lemma metric_tlvs_ok nb : nb_shape nb -> forall l pre, ds = pre ++ l ->
  exists ts, metric_tlvs (zlen pre) l nb = Some ts /\ (forall t, In t ts -> exists e b0 b1, t = WMetric e b0 b1) /\
  forall ci co, zlen ci = MAXDOM -> zlen co = MAXDOM ->
  exists ci' co', read_costs ds (mets ts) ci co = Some (ci', co') /\ zlen ci' = MAXDOM /\ zlen co' = MAXDOM /\
   forall i, if (zlen pre <=? i) && (i <? zlen ds) then upd_in nb i (zget ci i) (zget ci' i) /\ upd_out nb i (zget co i) (zget co' i)
             else zget ci' i = zget ci i /\ zget co' i = zget co i.
Proof.
  intros (S1 & S2 & S3 & U1 & U2). induction l as [|d l IH]; intros pre E.
  { exists []. split; [reflexivity|]. split; [intros t []|]. intros ci co L1 L2. exists ci, co. split; [reflexivity|]. split; [exact L1|]. split; [exact L2|].
    intros i. rewrite app_nil_r in E. subst pre. destruct (Z.leb_spec (zlen ds) i), (Z.ltb_spec i (zlen ds)); try lia; cbn [andb]; auto. }
  destruct (IH (pre ++ [d])) as (r & ER & RM & RD); [rewrite <- app_assoc; exact E|]. rewrite zlen_app in ER, RD. change (zlen [d]) with 1 in ER, RD.
  pose proof dom_len as DL. assert (zlen ds = zlen pre + (zlen l + 1)) as LE by (rewrite E, zlen_app, zlen_cons; reflexivity).
  pose proof (zlen_nonneg pre) as PN. pose proof (zlen_nonneg l) as LN. change MAXDOM with 4 in *.
  destruct (zget_Some (b_mpr nb) (zlen pre) ltac:(lia)) as [mpr E1]. destruct (zget_Some (b_in nb) (zlen pre) ltac:(lia)) as [mi E2].
  destruct (zget_Some (b_out nb) (zlen pre) ltac:(lia)) as [mo E3].
  pose proof (Forall_zget _ _ _ _ U1 E2) as UI. pose proof (Forall_zget _ _ _ _ U2 E3) as UO.
  cbn [metric_tlvs]. rewrite E1, E2, E3, ER.
  (* arrays after the TLVs of this domain *)
  assert (forall ci co ci1 co1, zlen ci1 = 4 -> zlen co1 = 4 -> upd_in nb (zlen pre) (zget ci (zlen pre)) (zget ci1 (zlen pre)) -> upd_out nb (zlen pre) (zget co (zlen pre)) (zget co1 (zlen pre)) ->
    (forall i, i <> zlen pre -> zget ci1 i = zget ci i /\ zget co1 i = zget co i) ->
    exists ci' co', read_costs ds (mets r) ci1 co1 = Some (ci', co') /\ zlen ci' = 4 /\ zlen co' = 4 /\
     forall i, if (zlen pre <=? i) && (i <? zlen ds) then upd_in nb i (zget ci i) (zget ci' i) /\ upd_out nb i (zget co i) (zget co' i)
             else zget ci' i = zget ci i /\ zget co' i = zget co i) as FIN.
  { intros ci co ci1 co1 L1 L2 HI HO HX. destruct (RD ci1 co1 L1 L2) as (ci' & co' & R & Q1 & Q2 & Q3). exists ci', co'. split; [exact R|]. split; [exact Q1|]. split; [exact Q2|].
    intros i. specialize (Q3 i). destruct (Z.eq_dec i (zlen pre)) as [->|N].
    - destruct (Z.leb_spec (zlen pre + 1) (zlen pre)); [lia|]. cbn [andb] in Q3. destruct (Z.leb_spec (zlen pre) (zlen pre)); [|lia]. destruct (Z.ltb_spec (zlen pre) (zlen ds)); [|lia].
      cbn [andb]. destruct Q3 as [-> ->]. auto.
    - destruct (HX i N) as [<- <-]. destruct (Z.leb_spec (zlen pre + 1) i), (Z.leb_spec (zlen pre) i); try lia; exact Q3. }
  assert (0 <= zlen pre < zlen ds) as PB by lia.
  assert (forall ci co, ~ (selects nb (zlen pre) /\ valid mi) -> upd_in nb (zlen pre) (zget ci (zlen pre)) (zget ci (zlen pre)) /\ upd_out nb (zlen pre) (zget co (zlen pre)) (zget co (zlen pre))) as NONE.
  { intros ci co N. split; [exists mi|exists mi, mo]; (split; [exact E2|]); [right; auto|]. split; [exact E3|]. right. split; [|reflexivity]. tauto. }
  destruct mpr; cbn [negb].
  2:{ exists r. split; [reflexivity|]. split; [exact RM|]. intros ci co L1 L2.
      destruct (NONE ci co) as [N1 N2]; [intros [[_ X] _]; congruence|]. apply (FIN ci co ci co); auto. }
  assert (selects nb (zlen pre)) as SEL by (split; [exact PB|exact E1]).
  destruct (encode_cases mi UI) as [(VI & i0 & i1 & EI & B0 & B1 & RI)|(VI & EI)].
  2:{ exists r. split; [|split; [exact RM|]].
      - destruct (Z.gtb_spec mi METRIC_MAX) as [G|G]; [reflexivity|]. destruct EI as [->|[X _]]; [reflexivity|lia].
      - intros ci co L1 L2. destruct (NONE ci co) as [N1 N2]; [tauto|]. apply (FIN ci co ci co); auto. }
  destruct (Z.gtb_spec mi METRIC_MAX) as [G|_]; [destruct VI; lia|]. rewrite EI.
  destruct (encode_cases mo UO) as [(VO & o0 & o1 & EO & C0 & C1 & RO)|(VO & EO)].
  - rewrite EO, (flag_differs i0 o0 B0 C0). cbn [andb]. destruct (Z.leb_spec mo METRIC_MAX); [|destruct VO; lia].
    eexists. split; [reflexivity|]. split; [intros t [<-|[<-|H1]]; eauto|]. intros ci co L1 L2.
    cbn [mets flat_map app]. fold (mets r).
    destruct (read_in pre d l i0 i1 ((DomModel.d_ext d, (metric_set_flag o0 DomModel.OUTGOING_NEIGH, o1)) :: mets r) ci co E B0 B1 L1) as (ci1 & Z1 & L1' & ->).
    destruct (read_out pre d l o0 o1 (mets r) ci1 co E C0 C1 L2) as (co1 & Z2 & L2' & ->).
    apply (FIN ci co ci1 co1); auto.
    + exists mi. split; [exact E2|]. left. split; [exact SEL|]. split; [exact VI|]. exists (metric_value (256 * i0 + i1)). split; [|exact RI]. rewrite (zget_zset _ _ _ _ _ Z1), Z.eqb_refl. reflexivity.
    + exists mi, mo. split; [exact E2|]. split; [exact E3|]. left. split; [exact SEL|]. split; [exact VI|]. split; [exact VO|]. eexists. split; [|exact RO]. rewrite (zget_zset _ _ _ _ _ Z2), Z.eqb_refl. reflexivity.
    + intros i N. rewrite (zget_zset _ _ _ _ _ Z1), (zget_zset _ _ _ _ _ Z2). destruct (Z.eqb_spec i (zlen pre)); [contradiction|auto].
  - exists (WMetric (DomModel.d_ext d) (metric_set_flag i0 DomModel.INCOMING_NEIGH) i1 :: r). split.
    { destruct EO as [->|[X ->]]; [reflexivity|]. rewrite (flag_differs i0 15 B0 ltac:(lia)). cbn [andb]. destruct (Z.leb_spec mo METRIC_MAX); [lia|reflexivity]. }
    split; [intros t [<-|H1]; eauto|]. intros ci co L1 L2. cbn [mets flat_map app]. fold (mets r).
    destruct (read_in pre d l i0 i1 (mets r) ci co E B0 B1 L1) as (ci1 & Z1 & L1' & ->).
    apply (FIN ci co ci1 co); auto.
    + exists mi. split; [exact E2|]. left. split; [exact SEL|]. split; [exact VI|]. eexists. split; [|exact RI]. rewrite (zget_zset _ _ _ _ _ Z1), Z.eqb_refl. reflexivity.
    + exists mi, mo. split; [exact E2|]. split; [exact E3|]. right. split; [tauto|reflexivity].
    + intros i N. rewrite (zget_zset _ _ _ _ _ Z1). destruct (Z.eqb_spec i (zlen pre)); [contradiction|auto].
Qed.

(** ** Messages *)
Definition addrs (w : wmsg) : list Z := map fst w.
Lemma add_address_fresh a w : ~ In a (addrs w) -> add_address a w = w ++ [(a, [])].
Proof.
  induction w as [|[b l] w IH]; intros N; [reflexivity|]. cbn [add_address addrs map In fst] in *. destruct (Z.eqb_spec b a); [tauto|]. rewrite IH by tauto. reflexivity.
Qed.
Lemma add_tlv_last a t dup l w : ~ In a (addrs w) -> (dup = true \/ existsb (same_type t) l = false) -> add_tlv a t dup (w ++ [(a, l)]) = w ++ [(a, l ++ [t])].
Proof.
  intros N D. induction w as [|[b k] w IH]; cbn [app add_tlv].
  - rewrite Z.eqb_refl. destruct D as [->| ->]; [reflexivity|]. rewrite andb_false_r. reflexivity.
  - cbn [addrs map In fst] in N. destruct (Z.eqb_spec b a); [tauto|]. rewrite IH by tauto. reflexivity.
Qed.
Lemma add_tlvs_dup a ts l w : ~ In a (addrs w) -> add_tlvs a ts true (w ++ [(a, l)]) = w ++ [(a, l ++ ts)].
Proof.
  intros N. revert l. induction ts as [|t ts IH]; intros l; cbn [add_tlvs fold_left]; [now rewrite app_nil_r|].
  rewrite add_tlv_last by auto. fold (add_tlvs a ts true (w ++ [(a, l ++ [t])])). rewrite IH, <- app_assoc. reflexivity.
Qed.

Definition kindv (nb : tnb) (a : Z) : Z := Z.lor (if routable a then 2 else 0) (if is_originator nb a then 1 else 0).
Definition wanted (nb : tnb) (a : Z) : bool := fam a && (nhdp_routable routable nhdp_conf a || is_originator nb a).
Lemma orig_iff nb a : is_originator nb a = true <-> b_orig nb = Some a.
Proof. unfold is_originator. destruct (b_orig nb) as [o|]; [rewrite Z.eqb_eq|]; split; congruence. Qed.
Lemma kindv_ok nb a : kind_of nb a (kindv nb a).
Proof.
  unfold kind_of. rewrite <- (orig_iff nb a). unfold kindv. destruct (routable a), (is_originator nb a); cbn; intuition (lia || discriminate).
Qed.
Lemma wanted_kind nb a : wanted nb a = true -> (kindv nb a =? 0) = false.
Proof.
  unfold wanted, nhdp_routable, kindv. destruct (fam a); cbn [andb]; [|discriminate]. destruct nhdp_conf; cbn [negb]; destruct (routable a), (is_originator nb a); cbn; congruence.
Qed.
Definition entry (nb : tnb) (m : list wtlv) (a : Z) : Z * list wtlv := (a, WType (kindv nb a) :: m).
Lemma add_naddrs_ok nb m l : forall w, metric_tlvs 0 ds nb = Some m -> NoDup l -> (forall a, In a l -> ~ In a (addrs w)) ->
  add_naddrs ds fam routable nhdp_conf nb l w = Some (w ++ map (entry nb m) (filter (wanted nb) l)).
Proof.
  induction l as [|a l IH]; intros w M N F; cbn [add_naddrs filter map]; [now rewrite app_nil_r|]. inversion N as [|x y N1 N2]; subst.
  assert (forall a', In a' l -> ~ In a' (addrs w)) as F' by (intros; apply F; right; assumption).
  unfold wanted at 1. destruct (fam a) eqn:FA; cbn [negb andb]; [|now apply IH].
  destruct (nhdp_routable routable nhdp_conf a || is_originator nb a) eqn:OR.
  - assert (negb (nhdp_routable routable nhdp_conf a) && negb (is_originator nb a) = false) as ->.
    { rewrite <- negb_orb, OR. reflexivity. }
    fold (kindv nb a). assert (wanted nb a = true) as WT by (unfold wanted; now rewrite FA, OR). rewrite (wanted_kind nb a WT), M.
    assert (~ In a (addrs w)) as NA by (apply F; left; reflexivity).
    rewrite (add_address_fresh a w NA), (add_tlv_last a _ _ [] w NA) by (right; reflexivity). cbn [app]. rewrite (add_tlvs_dup a m _ w NA). cbn [app].
    rewrite IH; [|exact M|exact N2|].
    + rewrite <- app_assoc. reflexivity.
    + intros a' I1. unfold addrs. rewrite map_app. intros X. apply in_app_or in X as [X|[X|[]]]; [exact (F' a' I1 X)|]. cbn in X. subst a'. exact (N1 I1).
  - assert (negb (nhdp_routable routable nhdp_conf a) && negb (is_originator nb a) = true) as -> by (rewrite <- negb_orb, OR; reflexivity).
    now apply IH.
Qed.

Lemma any_mpr_ok nb : nb_shape nb -> forall l pre, ds = pre ++ l ->
  exists b, any_mpr (zlen pre) l nb = Some b /\ (b = true <-> exists i, zlen pre <= i /\ selects nb i).
Proof.
  intros (S1 & _). induction l as [|d l IH]; intros pre E; cbn [any_mpr].
  - exists false. split; [reflexivity|]. split; [discriminate|]. intros (i & I1 & I2 & _). rewrite app_nil_r in E. subst. lia.
  - pose proof dom_len as DL. assert (zlen ds = zlen pre + (zlen l + 1)) as LE by (rewrite E, zlen_app, zlen_cons; reflexivity).
    pose proof (zlen_nonneg pre) as PN. pose proof (zlen_nonneg l) as LN. change MAXDOM with 4 in *.
    destruct (zget_Some (b_mpr nb) (zlen pre) ltac:(lia)) as [m E1]. rewrite E1. destruct m.
    + exists true. split; [reflexivity|]. split; [|auto]. intros _. exists (zlen pre). split; [lia|]. split; [lia|exact E1].
    + destruct (IH (pre ++ [d])) as (b & EB & IB); [rewrite <- app_assoc; exact E|]. rewrite zlen_app in EB, IB. change (zlen [d]) with 1 in EB, IB.
      exists b. split; [exact EB|]. rewrite IB. split; intros (i & I1 & I2); exists i; (split; [|exact I2]); [lia|].
      destruct (Z.eq_dec i (zlen pre)) as [->|]; [|lia]. destruct I2 as [_ I2]. congruence.
Qed.

Definition nb_part (nb : tnb) : wmsg :=
  match any_mpr 0 ds nb, metric_tlvs 0 ds nb with
  | Some true, Some m => if b_sym nb then map (entry nb m) (filter (wanted nb) (b_addrs nb)) else []
  | _, _ => []
  end.
Lemma nb_part_addrs nb a : In a (addrs (nb_part nb)) -> In a (b_addrs nb).
Proof.
  unfold nb_part. destruct (any_mpr 0 ds nb) as [[]|]; try (intros []; fail). destruct (metric_tlvs 0 ds nb); try (intros []; fail). destruct (b_sym nb); try (intros []; fail).
  unfold addrs. rewrite map_map. cbn. rewrite map_id. intros H. apply filter_In in H. apply H.
Qed.
Lemma add_neighbors_ok nbs : forall w, Forall nb_shape nbs -> NoDup (flat_map b_addrs nbs) -> (forall a, In a (flat_map b_addrs nbs) -> ~ In a (addrs w)) ->
  add_neighbors ds fam routable nhdp_conf nbs w = Some (w ++ flat_map nb_part nbs).
Proof.
  induction nbs as [|nb nbs IH]; intros w SH N F; cbn [add_neighbors flat_map]; [now rewrite app_nil_r|].
  pose proof (Forall_inv SH) as S1. apply Forall_inv_tail in SH. cbn [flat_map] in N, F.
  destruct (any_mpr_ok nb S1 ds [] eq_refl) as (b & EB & _). destruct (metric_tlvs_ok nb S1 ds [] eq_refl) as (m & EM & _). change (zlen (@nil dom)) with 0 in EB, EM.
  assert (forall x y : list Z, NoDup (x ++ y) -> NoDup x /\ NoDup y /\ forall a, In a x -> ~ In a y) as ND.
  { clear. induction x as [|a x IH]; intros y H; cbn in *; [split; [constructor|]; split; [exact H|]; intros a []|]. inversion H as [|? ? H1 H2]; subst. destruct (IH y H2) as (A & B & C).
    split; [constructor; [|exact A]; intros X; apply H1, in_or_app; auto|]. split; [exact B|]. intros c [<-|I1]; [|exact (C c I1)]. intros X. apply H1, in_or_app. auto. }
  destruct (ND _ _ N) as (N1 & N2 & N3). clear ND.
  assert (forall a, In a (flat_map b_addrs nbs) -> ~ In a (addrs w)) as F2 by (intros a I1; apply F, in_or_app; auto).
  unfold nb_part at 1. rewrite EB, EM. destruct (b_sym nb); cbn [negb]; [|destruct b; cbn [app]; now apply IH].
  destruct b; cbn [negb]; [|cbn [app]; now apply IH].
  rewrite (add_naddrs_ok nb m (b_addrs nb) w EM N1) by (intros a I1; apply F, in_or_app; auto).
  rewrite IH; [rewrite <- app_assoc; reflexivity|exact SH|exact N2|].
  intros a I1. unfold addrs. rewrite map_app. intros X. apply in_app_or in X as [X|X]; [exact (F2 a I1 X)|].
  rewrite map_map in X. cbn in X. rewrite map_id in X. apply filter_In in X as [X _]. exact (N3 a X I1).
Qed.

(** attached networks *)
Lemma lan_metrics_ok e : lan_shape e -> forall l pre vec, ds = pre ++ l -> zlen vec = MAXDOM ->
  exists ts vec', lan_metrics (zlen pre) l e vec = Some (ts, vec') /\ zlen vec' = MAXDOM /\
  (forall t, In t ts -> exists d b0 b1, t = WMetric (DomModel.d_ext d) b0 b1 /\ In d l) /\
  (forall i, if (zlen pre <=? i) && (i <? zlen ds) then exists x, zget (l_data e) i = Some x /\ ((valid (l_metric x) /\ zget vec' i = Some (l_dist x)) \/ (~ valid (l_metric x) /\ zget vec' i = zget vec i)) else zget vec' i = zget vec i) /\
  NoDup (map (fun t => match t with WMetric x _ _ => x | _ => -1 end) ts) /\
  forall ci co, zlen co = MAXDOM -> exists co', read_costs ds (mets ts) ci co = Some (ci, co') /\ zlen co' = MAXDOM /\
   forall i, if (zlen pre <=? i) && (i <? zlen ds) then exists x, zget (l_data e) i = Some x /\ ((valid (l_metric x) /\ exists c, zget co' i = Some c /\ rounded (l_metric x) c) \/ (~ valid (l_metric x) /\ zget co' i = zget co i)) else zget co' i = zget co i.
Proof.
  intros (S1 & U1). induction l as [|d l IH]; intros pre vec E LV.
  { exists [], vec. split; [reflexivity|]. split; [exact LV|]. split; [intros t []|]. rewrite app_nil_r in E. subst pre.
    assert (forall i, (zlen ds <=? i) && (i <? zlen ds) = false) as Z0 by (intros i; destruct (Z.leb_spec (zlen ds) i), (Z.ltb_spec i (zlen ds)); lia || reflexivity).
    split; [intros i; rewrite Z0; reflexivity|]. split; [constructor|]. intros ci co L. exists co. split; [reflexivity|]. split; [exact L|]. intros i. rewrite Z0. reflexivity. }
  pose proof dom_len as DL. assert (zlen ds = zlen pre + (zlen l + 1)) as LE by (rewrite E, zlen_app, zlen_cons; reflexivity).
  pose proof (zlen_nonneg pre) as PN. pose proof (zlen_nonneg l) as LN. change MAXDOM with 4 in *.
  destruct (zget_Some (l_data e) (zlen pre) ltac:(lia)) as [x EX]. pose proof (Forall_zget _ _ _ _ U1 EX) as UX. cbv beta in UX.
  cbn [lan_metrics]. rewrite EX.
  assert (ds = (pre ++ [d]) ++ l) as E' by (rewrite <- app_assoc; exact E).
  assert (forall i, i <> zlen pre -> (zlen pre + 1 <=? i) = (zlen pre <=? i)) as SH by (intros i N; destruct (Z.leb_spec (zlen pre + 1) i), (Z.leb_spec (zlen pre) i); lia || reflexivity).
  assert ((zlen pre <=? zlen pre) && (zlen pre <? zlen ds) = true) as HERE by (destruct (Z.leb_spec (zlen pre) (zlen pre)), (Z.ltb_spec (zlen pre) (zlen ds)); lia || reflexivity).
  assert ((zlen pre + 1 <=? zlen pre) = false) as NOT by (apply Z.leb_gt; lia).
  destruct (encode_cases (l_metric x) UX) as [(VX & o0 & o1 & EO & C0 & C1 & RO)|(VX & EO)].
  - destruct (Z.gtb_spec (l_metric x) METRIC_MAX) as [G|_]; [destruct VX; lia|]. rewrite EO.
    destruct (zset_Some vec (zlen pre) (l_dist x)) as [vec1 Z1]; [lia|]. rewrite Z1.
    destruct (IH (pre ++ [d]) vec1 E') as (r & vec' & ER & LV' & RM & RV & RN & RD); [rewrite (zset_len _ _ _ _ Z1); exact LV|].
    rewrite zlen_app in ER, RV, RD. change (zlen [d]) with 1 in *. rewrite ER. cbn [fst snd].
    eexists. exists vec'. split; [reflexivity|]. split; [exact LV'|]. split; [|split; [|split]].
    + intros t [<-|H1]; [exists d; eexists; eexists; split; [reflexivity|left; reflexivity]|]. destruct (RM t H1) as (d' & b0 & b1 & T1 & T2). exists d', b0, b1. split; [exact T1|right; exact T2].
    + intros i. specialize (RV i). destruct (Z.eq_dec i (zlen pre)) as [->|N].
      * rewrite HERE. rewrite NOT in RV. cbn [andb] in RV. exists x. split; [exact EX|]. left. split; [exact VX|]. rewrite RV, (zget_zset _ _ _ _ _ Z1), Z.eqb_refl. reflexivity.
      * rewrite (SH i N) in RV. rewrite (zget_zset _ _ _ _ _ Z1) in RV. destruct (Z.eqb_spec i (zlen pre)); [contradiction|]. exact RV.
    + cbn [map]. constructor; [|exact RN]. intros X. apply in_map_iff in X as (t & T1 & T2). destruct (RM t T2) as (d' & b0 & b1 & -> & D').
      destruct Ok as (_ & ND & _). rewrite E, map_app in ND. apply NoDup_remove_2 in ND. apply ND. apply in_or_app. right. rewrite <- T1. apply in_map. exact D'.
    + intros ci co L. cbn [mets flat_map app]. fold (mets r). destruct (read_out pre d l o0 o1 (mets r) ci co E C0 C1 L) as (co1 & Z2 & L2' & ->).
      destruct (RD ci co1 L2') as (co' & R & Q1 & Q2). exists co'. split; [exact R|]. split; [exact Q1|]. intros i. specialize (Q2 i). destruct (Z.eq_dec i (zlen pre)) as [->|N].
      * rewrite HERE. rewrite NOT in Q2. cbn [andb] in Q2. exists x. split; [exact EX|]. left. split; [exact VX|]. eexists. split; [|exact RO]. rewrite Q2, (zget_zset _ _ _ _ _ Z2), Z.eqb_refl. reflexivity.
      * rewrite (SH i N) in Q2. rewrite (zget_zset _ _ _ _ _ Z2) in Q2. destruct (Z.eqb_spec i (zlen pre)); [contradiction|]. exact Q2.
  - destruct (IH (pre ++ [d]) vec E' LV) as (r & vec' & ER & LV' & RM & RV & RN & RD). rewrite zlen_app in ER, RV, RD. change (zlen [d]) with 1 in *.
    exists r, vec'. split; [destruct (Z.gtb_spec (l_metric x) METRIC_MAX) as [G|G]; [exact ER|]; destruct EO as [->|[X _]]; [exact ER|lia]|]. split; [exact LV'|]. split; [|split; [|split; [exact RN|]]].
    + intros t H1. destruct (RM t H1) as (d' & b0 & b1 & T1 & T2). exists d', b0, b1. split; [exact T1|right; exact T2].
    + intros i. specialize (RV i). destruct (Z.eq_dec i (zlen pre)) as [->|N].
      * rewrite HERE. rewrite NOT in RV. cbn [andb] in RV. exists x. split; [exact EX|]. right. split; [exact VX|exact RV].
      * rewrite (SH i N) in RV. exact RV.
    + intros ci co L. destruct (RD ci co L) as (co' & R & Q1 & Q2). exists co'. split; [exact R|]. split; [exact Q1|]. intros i. specialize (Q2 i). destruct (Z.eq_dec i (zlen pre)) as [->|N].
      * rewrite HERE. rewrite NOT in Q2. cbn [andb] in Q2. exists x. split; [exact EX|]. right. split; [exact VX|exact Q2].
      * rewrite (SH i N) in Q2. exact Q2.
Qed.

Lemma add_tlvs_metrics a ts : forall l w, ~ In a (addrs w) -> (forall t, In t ts -> exists e b0 b1, t = WMetric e b0 b1) ->
  NoDup (map (fun t => match t with WMetric x _ _ => x | _ => -1 end) ts) -> (forall t u, In t ts -> In u l -> same_type t u = false) ->
  add_tlvs a ts false (w ++ [(a, l)]) = w ++ [(a, l ++ ts)].
Proof.
  induction ts as [|t ts IH]; intros l w N M ND D; cbn [add_tlvs fold_left]; [now rewrite app_nil_r|].
  rewrite add_tlv_last; [|exact N|right]. 
  2:{ destruct (existsb (same_type t) l) eqn:X; [|reflexivity]. apply existsb_exists in X as (u & U1 & U2). rewrite (D t u (or_introl eq_refl) U1) in U2. discriminate. }
  fold (add_tlvs a ts false (w ++ [(a, l ++ [t])])). cbn [map] in ND. inversion ND as [|x y N1 N2]; subst. rewrite IH; [now rewrite <- app_assoc|exact N|intros; apply M; right; assumption|exact N2|].
  intros t' u T U. apply in_app_or in U as [U|[U|[]]]; [apply D; [right; exact T|exact U]|]. subst u.
  destruct (M t (or_introl eq_refl)) as (e & b0 & b1 & ->). destruct (M t' (or_intror T)) as (e' & c0 & c1 & ->). cbn. apply Z.eqb_neq. intros ->.
  apply N1. apply in_map_iff. exists (WMetric e c0 c1). auto.
Qed.

(** other addresses are left alone *)
Lemma add_address_other a b l w : b <> a -> (In (b, l) (add_address a w) <-> In (b, l) w).
Proof.
  intros N. induction w as [|[c k] w IH]; cbn [add_address].
  - cbn. intuition congruence.
  - destruct (Z.eqb_spec c a); [reflexivity|]. cbn [In]. rewrite IH. reflexivity.
Qed.
Lemma add_tlv_other a t dup b l w : b <> a -> (In (b, l) (add_tlv a t dup w) <-> In (b, l) w).
Proof.
  intros N. induction w as [|[c k] w IH]; cbn [add_tlv]; [reflexivity|]. destruct (Z.eqb_spec c a) as [->|]; [|cbn [In]; rewrite IH; reflexivity].
  destruct (negb dup && existsb (same_type t) k); [reflexivity|]. cbn [In]. intuition congruence.
Qed.
Lemma add_tlvs_other a ts dup b l : forall w, b <> a -> (In (b, l) (add_tlvs a ts dup w) <-> In (b, l) w).
Proof.
  induction ts as [|t ts IH]; intros w N; cbn [add_tlvs fold_left]; [reflexivity|]. fold (add_tlvs a ts dup (add_tlv a t dup w)). rewrite IH by exact N. apply add_tlv_other, N.
Qed.
Lemma add_tlv_addrs a t dup w : addrs (add_tlv a t dup w) = addrs w.
Proof.
  induction w as [|[c k] w IH]; cbn [add_tlv]; [reflexivity|]. destruct (c =? a); [destruct (negb dup && existsb (same_type t) k); reflexivity|]. unfold addrs in *. cbn [map fst]. now rewrite IH.
Qed.
Lemma add_tlvs_addrs a ts dup : forall w, addrs (add_tlvs a ts dup w) = addrs w.
Proof.
  induction ts as [|t ts IH]; intros w; cbn [add_tlvs fold_left]; [reflexivity|]. fold (add_tlvs a ts dup (add_tlv a t dup w)). rewrite IH. apply add_tlv_addrs.
Qed.
Lemma add_address_addrs a w : addrs (add_address a w) = if existsb (Z.eqb a) (addrs w) then addrs w else addrs w ++ [a].
Proof.
  induction w as [|[c k] w IH]; cbn [add_address]; [reflexivity|]. destruct (Z.eqb_spec c a) as [->|N]; unfold addrs in *; cbn [map fst existsb].
  - rewrite Z.eqb_refl. reflexivity.
  - rewrite IH. destruct (Z.eqb_spec a c); [congruence|]. cbn [orb]. destruct (existsb (Z.eqb a) (map fst w)); reflexivity.
Qed.

Notation addl := (add_lan ds fam plen src_value).
Lemma vec0 : zlen (repeat 0 (Z.to_nat MAXDOM)) = MAXDOM. Proof. reflexivity. Qed.
Lemma add_lan_some e w : lan_shape e -> exists w', addl e w = Some w' /\ (forall b l, b <> laddr e -> (In (b, l) w' <-> In (b, l) w)) /\
  (NoDup (addrs w) -> NoDup (addrs w')) /\ (forall a, In a (addrs w') <-> (In a (addrs w) \/ (fam (fst (l_key e)) = true /\ a = laddr e))).
Proof.
  intros SH. unfold add_lan, laddr. destruct (fam (fst (l_key e))); cbn [negb].
  2:{ exists w. split; [reflexivity|]. split; [reflexivity|]. split; [auto|]. intuition congruence. }
  destruct (lan_address plen (l_key e)) as [a ext]. cbn [fst]. destruct (lan_metrics_ok e SH ds [] _ eq_refl vec0) as (ts & vec & EM & _). change (zlen (@nil dom)) with 0 in EM. rewrite EM. cbn [fst snd].
  set (v := firstn _ vec). set (w1 := add_tlv a (WGateway ext v) false _).
  assert ((forall b l, b <> a -> (In (b, l) w1 <-> In (b, l) w)) /\ addrs w1 = if existsb (Z.eqb a) (addrs w) then addrs w else addrs w ++ [a]) as [O1 O2].
  { split; [intros b l N; unfold w1; rewrite add_tlv_other, add_tlvs_other, add_address_other by exact N; reflexivity|]. unfold w1. rewrite add_tlv_addrs, add_tlvs_addrs. apply add_address_addrs. }
  clearbody w1. 
  assert (forall w2, (forall b l, b <> a -> (In (b, l) w2 <-> In (b, l) w1)) -> addrs w2 = addrs w1 -> (forall b l, b <> a -> (In (b, l) w2 <-> In (b, l) w)) /\
    (NoDup (addrs w) -> NoDup (addrs w2)) /\ (forall a', In a' (addrs w2) <-> (In a' (addrs w) \/ (true = true /\ a' = a)))) as FIN.
  { intros w2 Q1 Q2. split; [intros b l N; rewrite Q1, O1 by exact N; reflexivity|]. rewrite Q2, O2. destruct (existsb (Z.eqb a) (addrs w)) eqn:X.
    - apply existsb_exists in X as (y & Y1 & Y2). apply Z.eqb_eq in Y2. subst y. split; [auto|]. intros a'. intuition congruence.
    - assert (~ In a (addrs w)) as NA by (intros Y; assert (existsb (Z.eqb a) (addrs w) = true) by (apply existsb_exists; exists a; rewrite Z.eqb_refl; auto); congruence).
      split; [intros ND; apply nd_snoc; assumption|]. intros a'. rewrite in_app_iff. cbn [In]. intuition congruence. }
  destruct (ext =? 1); eexists; (split; [reflexivity|]); apply FIN; try reflexivity; [|apply add_tlv_addrs].
  intros b l N. apply add_tlv_other, N.
Qed.
Lemma add_lans_some t : forall w, Forall lan_shape t -> exists w', add_lans ds fam plen src_value t w = Some w' /\
  (forall b l, ~ In b (map laddr t) -> (In (b, l) w' <-> In (b, l) w)) /\ (NoDup (addrs w) -> NoDup (addrs w')) /\
  (forall a, In a (addrs w') <-> (In a (addrs w) \/ exists e, In e t /\ fam (fst (l_key e)) = true /\ a = laddr e)).
Proof.
  induction t as [|e t IH]; intros w SH; cbn [add_lans].
  - exists w. split; [reflexivity|]. split; [reflexivity|]. split; [auto|]. intros a. split; [auto|]. intros [H|(e & [] & _)]; exact H.
  - destruct (add_lan_some e w (Forall_inv SH)) as (w1 & -> & A1 & A2 & A3). destruct (IH w1 (Forall_inv_tail SH)) as (w' & -> & B1 & B2 & B3). exists w'. split; [reflexivity|]. split; [|split; [auto|]].
    + intros b l N. cbn [map In] in N. rewrite B1 by tauto. apply A1. intros X. apply N. left. congruence.
    + intros a. rewrite B3, A3. split.
      * intros [[H|[H1 H2]]|(x & X1 & X2)]; [auto|right; exists e; cbn; auto|right; exists x; cbn; tauto].
      * intros [H|(x & [->|X1] & X2)]; [auto|tauto|right; exists x; tauto].
Qed.

Lemma mets_cons_type v m : mets (WType v :: m) = mets m. Proof. reflexivity. Qed.
Lemma no_cost_get i c : zget no_cost i = Some c -> c = METRIC_INFINITE.
Proof. intros H. unfold no_cost in H. rewrite zget_repeat in H. destruct (_ && _); congruence. Qed.

(** ** The message *)
Notation msg := (tc_addresses ds fam routable nhdp_conf plen src_value).
Lemma tc_shape nbs t : Forall nb_shape nbs -> NoDup (flat_map b_addrs nbs) -> msg nbs t = add_lans ds fam plen src_value t (flat_map nb_part nbs).
Proof. intros S1 N. unfold tc_addresses. rewrite (add_neighbors_ok nbs [] S1 N) by (intros a _ []). reflexivity. Qed.
Lemma nb_part_in nb a l : nb_shape nb -> (In (a, l) (nb_part nb) <-> (announced nb a /\ exists m, metric_tlvs 0 ds nb = Some m /\ l = WType (kindv nb a) :: m)).
Proof.
  intros SH. unfold nb_part. destruct (any_mpr_ok nb SH ds [] eq_refl) as (b & EB & IB). destruct (metric_tlvs_ok nb SH ds [] eq_refl) as (m & EM & _). change (zlen (@nil dom)) with 0 in *.
  rewrite EB, EM.
  assert (wanted nb a = true <-> (fam a = true /\ (b_orig nb = Some a \/ (nhdp_conf = true /\ routable a = true)))) as WT.
  { unfold wanted, nhdp_routable. rewrite andb_true_iff, orb_true_iff, (orig_iff nb a). destruct nhdp_conf; cbn [negb]; intuition congruence. }
  assert (In (a, l) (map (entry nb m) (filter (wanted nb) (b_addrs nb))) <-> (l = WType (kindv nb a) :: m /\ In a (b_addrs nb) /\ wanted nb a = true)) as IM.
  { rewrite in_map_iff. split.
    - intros (x & X1 & X2). unfold entry in X1. injection X1 as -> <-. apply filter_In in X2. tauto.
    - intros (-> & H). exists a. split; [reflexivity|]. apply filter_In. exact H. }
  unfold announced. destruct b.
  - destruct (b_sym nb).
    + rewrite IM, WT. split.
      * intros (-> & H1 & H2 & H3). split; [|exists m; auto]. split; [reflexivity|]. split; [destruct (proj1 IB eq_refl) as (i & _ & I2); exists i; exact I2|tauto].
      * intros [(_ & _ & H1 & H2 & H3) (m' & M1 & M2)]. injection M1 as <-. tauto.
    + cbn [In]. split; [intros []|]. intros [[X _] _]. discriminate.
  - cbn [In]. split; [intros []|]. intros [(_ & (i & I2) & _) _]. assert (false = true) by (apply IB; exists i; split; [destruct I2; lia|exact I2]). discriminate.
Qed.

Lemma costs_of nb m : nb_shape nb -> metric_tlvs 0 ds nb = Some m -> exists ci co, read_costs ds (mets m) no_cost no_cost = Some (ci, co) /\ zlen ci = MAXDOM /\ zlen co = MAXDOM /\
  forall i, 0 <= i < zlen ds -> (exists c, zget ci i = Some c /\ cost_in nb i c) /\ (exists c, zget co i = Some c /\ cost_out nb i c).
Proof.
  intros SH EM. destruct (metric_tlvs_ok nb SH ds [] eq_refl) as (m' & EM' & _ & RD). change (zlen (@nil dom)) with 0 in *. rewrite EM in EM'. injection EM' as <-.
  destruct (RD no_cost no_cost eq_refl eq_refl) as (ci & co & R & L1 & L2 & Q). exists ci, co. split; [exact R|]. split; [exact L1|]. split; [exact L2|].
  intros i I1. specialize (Q i). destruct (Z.leb_spec 0 i); [|lia]. destruct (Z.ltb_spec i (zlen ds)); [|lia]. cbn [andb] in Q. destruct Q as [(mi & E1 & C1) (mi' & mo & E1' & E2 & C2)].
  pose proof dom_len as DL. change MAXDOM with 4 in *. destruct (zget_Some no_cost i) as [z EZ]; [change (zlen no_cost) with 4; lia|].
  pose proof (no_cost_get i z EZ) as ->. split.
  - destruct C1 as [(A & B & c & C & D)|(A & B)]; [exists c; split; [exact C|]|exists METRIC_INFINITE; split; [congruence|]]; exists mi; (split; [exact E1|]); auto.
  - destruct C2 as [(A & B & C & c & D & F)|(A & B)]; [exists c; split; [exact D|]|exists METRIC_INFINITE; split; [congruence|]]; exists mi', mo; (split; [exact E1'|]); (split; [exact E2|]); auto.
Qed.

(** what is said of a neighbor's address *)
Definition neighbor_told (nb : tnb) (a : Z) (l : list wtlv) : Prop :=
  exists v m, l = WType v :: m /\ kind_of nb a v /\ (forall t, In t m -> exists e b0 b1, t = WMetric e b0 b1) /\
  exists ci co, read_costs ds (mets l) no_cost no_cost = Some (ci, co) /\
  forall i, 0 <= i < zlen ds -> (exists c, zget ci i = Some c /\ cost_in nb i c) /\ (exists c, zget co i = Some c /\ cost_out nb i c).

Lemma parts_addr nbs a l : Forall nb_shape nbs -> (In (a, l) (flat_map nb_part nbs) <-> exists nb, In nb nbs /\ announced nb a /\ exists m, metric_tlvs 0 ds nb = Some m /\ l = WType (kindv nb a) :: m).
Proof.
  intros SH. rewrite in_flat_map. rewrite Forall_forall in SH. split; intros (nb & N1 & N2); exists nb; (split; [exact N1|]); apply (nb_part_in nb a l (SH nb N1)); exact N2.
Qed.
Lemma in_addrs a (w : wmsg) : In a (addrs w) <-> exists l, In (a, l) w.
Proof. unfold addrs. rewrite in_map_iff. split; [intros ([b l] & E & H); cbn in E; subst; eauto|intros (l & H); exists (a, l); auto]. Qed.

Lemma neighbors_thm nbs t : Forall nb_shape nbs -> Forall lan_shape t -> NoDup (flat_map b_addrs nbs) ->
  exists w, msg nbs t = Some w /\ NoDup (addrs w) /\
  (forall a, In a (addrs w) <-> ((exists nb, In nb nbs /\ announced nb a) \/ exists e, In e t /\ fam (fst (l_key e)) = true /\ a = laddr e)) /\
  (forall a l, In (a, l) w -> (forall e, In e t -> laddr e <> a) -> exists nb, In nb nbs /\ announced nb a /\ neighbor_told nb a l).
Proof.
  intros SN SL ND. rewrite (tc_shape nbs t SN ND). destruct (add_lans_some t (flat_map nb_part nbs) SL) as (w & -> & W1 & W2 & W3). exists w. split; [reflexivity|]. split; [|split].
  - apply W2. clear - ND. induction nbs as [|nb nbs IH]; cbn [flat_map]; [constructor|]. cbn [flat_map] in ND. unfold addrs. rewrite map_app. fold (addrs (nb_part nb)). fold (addrs (flat_map nb_part nbs)).
    assert (NoDup (b_addrs nb) /\ NoDup (flat_map b_addrs nbs) /\ forall a, In a (b_addrs nb) -> ~ In a (flat_map b_addrs nbs)) as (N1 & N2 & N3).
    { revert ND. generalize (flat_map b_addrs nbs). generalize (b_addrs nb). clear. induction l as [|a x IH]; intros y H; cbn in *; [split; [constructor|]; split; [exact H|]; intros a []|]. inversion H as [|? ? H1 H2]; subst. destruct (IH y H2) as (A & B & C).
      split; [constructor; [|exact A]; intros X; apply H1, in_or_app; auto|]. split; [exact B|]. intros c [<-|I1]; [|exact (C c I1)]. intros X. apply H1, in_or_app. auto. }
    assert (NoDup (addrs (nb_part nb))) as N4.
    { unfold nb_part. destruct (any_mpr 0 ds nb) as [[]|]; try constructor. destruct (metric_tlvs 0 ds nb); try constructor. destruct (b_sym nb); try constructor. unfold addrs. rewrite map_map. cbn. rewrite map_id. apply NoDup_filter, N1. }
    specialize (IH N2). revert N4 IH. generalize (nb_part_addrs nb). assert (forall a, In a (addrs (flat_map nb_part nbs)) -> In a (flat_map b_addrs nbs)) as X.
    { intros a H. rewrite in_addrs in H. destruct H as (l & H). apply in_flat_map in H as (x & X1 & X2). apply in_flat_map. exists x. split; [exact X1|]. apply nb_part_addrs. apply in_addrs. eauto. }
    revert X. generalize (addrs (flat_map nb_part nbs)). generalize (addrs (nb_part nb)). intros p q X Y P Q. induction P as [|a p A P IHp]; cbn; [exact Q|]. constructor; [|apply IHp; intros b B; apply Y; right; exact B].
    intros Z. apply in_app_or in Z as [Z|Z]; [tauto|]. exact (N3 a (Y a (or_introl eq_refl)) (X a Z)).
  - intros a. rewrite W3. apply or_iff_compat_r. rewrite in_addrs. split.
    + intros (l & H). apply (parts_addr nbs a l SN) in H as (nb & N1 & N2 & _). eauto.
    + intros (nb & N1 & N2). rewrite Forall_forall in SN. destruct (metric_tlvs_ok nb (SN nb N1) ds [] eq_refl) as (m & EM & _). exists (WType (kindv nb a) :: m). apply in_flat_map. exists nb. split; [exact N1|]. apply (nb_part_in nb a _ (SN nb N1)). split; [exact N2|]. exists m. auto.
  - intros a l H NL. assert (~ In a (map laddr t)) as NM by (intros X; apply in_map_iff in X as (e & E1 & E2); exact (NL e E2 E1)). apply (W1 a l NM) in H. apply (parts_addr nbs a l SN) in H as (nb & N1 & N2 & m & EM & ->).
    rewrite Forall_forall in SN. exists nb. split; [exact N1|]. split; [exact N2|]. exists (kindv nb a), m. split; [reflexivity|]. split; [apply kindv_ok|]. split.
    + destruct (metric_tlvs_ok nb (SN nb N1) ds [] eq_refl) as (m' & EM' & MM & _). change (zlen (@nil dom)) with 0 in EM'. rewrite EM in EM'. injection EM' as <-. exact MM.
    + destruct (costs_of nb m (SN nb N1) EM) as (ci & co & R & _ & _ & Q). exists ci, co. rewrite mets_cons_type. split; [exact R|exact Q].
Qed.

(** *** Attached networks *)
Lemma add_lan_fresh e w : lan_shape e -> fam (fst (l_key e)) = true -> ~ In (laddr e) (addrs w) ->
  exists ts vec, lan_metrics 0 ds e (repeat 0 (Z.to_nat MAXDOM)) = Some (ts, vec) /\
  addl e w = Some (w ++ [(laddr e, ts ++ WGateway (snd (lan_address plen (l_key e))) (firstn (Z.to_nat (if l_same e then 1 else mprtypes_size ds)) vec) ::
    (if snd (lan_address plen (l_key e)) =? 1 then [WSource (src_value (snd (l_key e)))] else []))]).
Proof.
  intros SH FA NA. destruct (lan_metrics_ok e SH ds [] _ eq_refl vec0) as (ts & vec & EM & LV & TM & _ & TN & _). change (zlen (@nil dom)) with 0 in EM.
  exists ts, vec. split; [exact EM|]. unfold add_lan. rewrite FA. cbn [negb]. unfold laddr in *. destruct (lan_address plen (l_key e)) as [a ext]. cbn [fst snd] in *. rewrite EM. cbn [fst snd].
  assert (forall t, In t ts -> exists e b0 b1, t = WMetric e b0 b1) as TM' by (intros t T; destruct (TM t T) as (d & b0 & b1 & X & _); eauto).
  assert (forall t, (forall x b0 b1, t <> WMetric x b0 b1) -> existsb (same_type t) ts = false) as NS.
  { intros t NT. destruct (existsb (same_type t) ts) eqn:X; [|reflexivity]. apply existsb_exists in X as (u & U1 & U2). destruct (TM' u U1) as (x & b0 & b1 & ->). destruct t; cbn in U2; try discriminate. exfalso. eapply NT; reflexivity. }
  rewrite (add_address_fresh a w NA), (add_tlvs_metrics a ts [] w NA TM' TN) by (intros t u _ []). cbn [app].
  rewrite add_tlv_last; [|exact NA|right; apply NS; congruence]. destruct (ext =? 1); [|reflexivity].
  rewrite add_tlv_last; [|exact NA|right; rewrite existsb_app, NS by congruence; reflexivity]. rewrite <- app_assoc. reflexivity.
Qed.

(** receiver of the message: olsrv2_reader.c reads the costs of the address, then
    the distances for the MPR types of the message (none sent with one domain) *)
Definition lan_read (l : list wtlv) (v : bytes) : option (list Z * list Z) :=
  do c <- read_costs ds (mets l) no_cost no_cost ;
  do types <- DomModel.process_types ds (if 1 <? zlen ds then Some [] else None) ;
  gw_types ds 0 types v (snd c) no_cost (repeat 0 (Z.to_nat MAXDOM)).

Lemma gw_types_read v co : zlen co = MAXDOM -> (zlen v = 1 \/ zlen v = zlen ds) -> forall l pre cost dist, ds = pre ++ l -> zlen cost = MAXDOM -> zlen dist = MAXDOM ->
  exists cost' dist', gw_types ds (zlen pre) (map DomModel.d_ext l) v co cost dist = Some (cost', dist') /\
  forall i, if (zlen pre <=? i) && (i <? zlen ds) then zget cost' i = zget co i /\ zget dist' i = zget v (if zlen v =? 1 then 0 else i) else zget cost' i = zget cost i /\ zget dist' i = zget dist i.
Proof.
  intros LC LV. induction l as [|d l IH]; intros pre cost dist E L1 L2; cbn [map gw_types].
  { exists cost, dist. split; [reflexivity|]. intros i. rewrite app_nil_r in E. subst pre. destruct (Z.leb_spec (zlen ds) i), (Z.ltb_spec i (zlen ds)); try lia; cbn [andb]; auto. }
  pose proof dom_len as DL. assert (zlen ds = zlen pre + (zlen l + 1)) as LE by (rewrite E, zlen_app, zlen_cons; reflexivity).
  pose proof (zlen_nonneg pre) as PN. pose proof (zlen_nonneg l) as LN. change MAXDOM with 4 in *.
  rewrite (ext_here pre d l E). destruct (zget_Some co (zlen pre) ltac:(lia)) as [c E1]. rewrite E1. destruct (zset_Some cost (zlen pre) c) as [cost1 Z1]; [lia|]. rewrite Z1.
  destruct (zget_Some v (if zlen v =? 1 then 0 else zlen pre)) as [b E2]; [destruct (Z.eqb_spec (zlen v) 1); lia|].
  assert ((if zlen v =? 1 then zget v 0 else zget v (zlen pre)) = Some b) as -> by (destruct (zlen v =? 1); exact E2).
  destruct (zset_Some dist (zlen pre) b) as [dist1 Z2]; [lia|]. rewrite Z2.
  destruct (IH (pre ++ [d]) cost1 dist1) as (cost' & dist' & R & Q); [rewrite <- app_assoc; exact E|rewrite (zset_len _ _ _ _ Z1); exact L1|rewrite (zset_len _ _ _ _ Z2); exact L2|].
  rewrite zlen_app in R, Q. change (zlen [d]) with 1 in *. exists cost', dist'. split; [exact R|]. intros i. specialize (Q i). rewrite (zget_zset _ _ _ _ _ Z1), (zget_zset _ _ _ _ _ Z2) in Q.
  destruct (Z.eqb_spec i (zlen pre)) as [K|N].
  - rewrite K in *. destruct (Z.leb_spec (zlen pre + 1) (zlen pre)); [lia|]. cbn [andb] in Q. destruct (Z.leb_spec (zlen pre) (zlen pre)); [|lia]. destruct (Z.ltb_spec (zlen pre) (zlen ds)); [|lia]. cbn [andb].
    rewrite E1, E2. exact Q.
  - destruct (Z.leb_spec (zlen pre + 1) i), (Z.leb_spec (zlen pre) i); try lia; exact Q.
Qed.

(** a network attached in every domain *)
Definition attached (e : lent) : Prop :=
  l_same e = same_distance 0 (l_data e) /\
  forall i x, zget (l_data e) i = Some x -> if i <? zlen ds then l_active x = true /\ valid (l_metric x) /\ 0 < l_dist x < 256 else l_active x = false.


Lemma lan_thm e w : lan_shape e -> fam (fst (l_key e)) = true -> ~ In (laddr e) (addrs w) -> attached e ->
  exists l v, addl e w = Some (w ++ [(laddr e, l)]) /\ In (WGateway (snd (lan_address plen (l_key e))) v) l /\
  (snd (lan_address plen (l_key e)) = 1 -> In (WSource (src_value (snd (l_key e)))) l) /\
  exists cost dist, lan_read l v = Some (cost, dist) /\
  forall i x, 0 <= i < zlen ds -> zget (l_data e) i = Some x -> zget dist i = Some (l_dist x) /\ exists c, zget cost i = Some c /\ rounded (l_metric x) c.
Proof.
  intros SH FA NA (SM & AT). pose proof dom_len as DL. pose proof SH as (SL & _). change MAXDOM with 4 in *.
  destruct (lan_metrics_ok e SH ds [] _ eq_refl vec0) as (ts & vec & EM & LV & TM & TV & TN & TR). change (zlen (@nil dom)) with 0 in *. change MAXDOM with 4 in *.
  destruct (add_lan_fresh e w SH FA NA) as (ts' & vec' & EM' & EA). change MAXDOM with 4 in *. rewrite EM in EM'. injection EM' as <- <-. set (k := snd (lan_address plen (l_key e))) in *.
  set (v := firstn _ vec) in EA. set (l := ts ++ _) in EA. exists l, v. split; [exact EA|]. split; [unfold l; apply in_or_app; right; left; reflexivity|]. split.
  { intros K. unfold l. apply in_or_app. right. right. rewrite K, Z.eqb_refl. left. reflexivity. }
  assert (mets l = mets ts) as ML by (unfold l, mets; rewrite flat_map_app; cbn [flat_map]; destruct (k =? 1); cbn; apply app_nil_r).
  assert (forall i x, 0 <= i < zlen ds -> zget (l_data e) i = Some x -> zget vec i = Some (l_dist x)) as VI.
  { intros i x B X. specialize (TV i). destruct (Z.leb_spec 0 i); [|lia]. destruct (Z.ltb_spec i (zlen ds)); [|lia]. cbn [andb] in TV. destruct TV as (y & Y1 & Y2). rewrite X in Y1. injection Y1 as <-.
    specialize (AT i x X). destruct (Z.ltb_spec i (zlen ds)); [|lia]. destruct Y2 as [[_ Y]|[Y _]]; [exact Y|tauto]. }
  destruct (TR no_cost no_cost eq_refl) as (co & RC & LC & QC).
  assert (forall x, In x (l_data e) -> l_active x = true -> 0 < l_dist x) as PD.
  { intros x X A. apply In_nth_error in X as (n & X). assert (zget (l_data e) (Z.of_nat n) = Some x) as X' by (unfold zget; destruct (Z.ltb_spec (Z.of_nat n) 0); [lia|]; rewrite Nat2Z.id; exact X).
    specialize (AT _ _ X'). destruct (Z.of_nat n <? zlen ds); [tauto|congruence]. }
  assert ((zlen v = 1 /\ forall i x, 0 <= i < zlen ds -> zget (l_data e) i = Some x -> zget v 0 = Some (l_dist x)) \/ (zlen v = zlen ds /\ 1 < zlen ds /\ forall i x, 0 <= i < zlen ds -> zget (l_data e) i = Some x -> zget v i = Some (l_dist x))) as VV.
  { destruct (l_same e) eqn:SE.
    - left. unfold v. split; [rewrite zlen_firstn; lia|]. intros i x B X. destruct (zget_Some (l_data e) 0 ltac:(lia)) as [x0 X0].
      rewrite (firstn_get vec 1 0 (l_dist x0)); [|apply (VI 0 x0); [lia|exact X0]|lia]. f_equal. symmetry in SM. apply same_meaning in SM as (d & _ & D); [|lia|exact PD].
      pose proof (AT 0 x0 X0) as A0. pose proof (AT i x X) as A1. destruct (Z.ltb_spec 0 (zlen ds)); [|lia]. destruct (Z.ltb_spec i (zlen ds)); [|lia].
      rewrite (D x0), (D x); try tauto; eapply zget_In; eassumption.
    - destruct (Z.eq_dec (zlen ds) 1) as [O|O].
      + exfalso. symmetry in SM. assert (same_distance 0 (l_data e) = true) as ST; [|congruence]. apply same_meaning; [lia|exact PD|]. destruct (zget_Some (l_data e) 0 ltac:(lia)) as [x0 X0]. exists (l_dist x0). split; [lia|].
        intros x X A. apply In_nth_error in X as (n & X). assert (zget (l_data e) (Z.of_nat n) = Some x) as X' by (unfold zget; destruct (Z.ltb_spec (Z.of_nat n) 0); [lia|]; rewrite Nat2Z.id; exact X).
        specialize (AT _ _ X'). destruct (Z.ltb_spec (Z.of_nat n) (zlen ds)); [|congruence]. replace (Z.of_nat n) with 0 in X' by lia. congruence.
      + right. unfold v, mprtypes_size. destruct (Z.ltb_spec 1 (zlen ds)); [|lia]. change MAXDOM with 4. rewrite Z.min_l by lia. split; [rewrite zlen_firstn; lia|]. split; [lia|].
        intros i x B X. apply firstn_get; [apply VI; assumption|exact B]. }
  assert (DomModel.process_types ds (if 1 <? zlen ds then Some [] else None) = Some (map DomModel.d_ext ds)) as PT.
  { rewrite (DomProofs.process_types_ok ds _ Ok). destruct (Z.ltb_spec 1 (zlen ds)); [reflexivity|]. clear - DL H. destruct ds as [|d [|d' r]]; [reflexivity|reflexivity|]. rewrite !zlen_cons in H. pose proof (zlen_nonneg r). lia. }
  unfold lan_read. rewrite ML, RC, PT. cbn [snd].
  destruct (gw_types_read v co LC) with (l := ds) (pre := @nil dom) (cost := no_cost) (dist := repeat 0 (Z.to_nat MAXDOM)) as (cost & dist & R & Q); try reflexivity; [tauto|].
  change (zlen (@nil dom)) with 0 in *. exists cost, dist. split; [exact R|]. intros i x B X. specialize (Q i). specialize (QC i). destruct (Z.leb_spec 0 i); [|lia]. destruct (Z.ltb_spec i (zlen ds)); [|lia]. cbn [andb] in Q, QC.
  destruct Q as [-> ->]. destruct QC as (y & Y1 & Y2). rewrite X in Y1. injection Y1 as <-. specialize (AT i x X). destruct (Z.ltb_spec i (zlen ds)); [|lia]. split.
  - destruct VV as [[V1 V2]|(V1 & V3 & V2)]; [rewrite V1; change (1 =? 1) with true; cbv iota; eapply V2; eassumption|]. destruct (Z.eqb_spec (zlen v) 1); [lia|]. eapply V2; eassumption.
  - destruct Y2 as [(_ & c & C1 & C2)|(Y & _)]; [exists c; auto|tauto].
Qed.

Lemma lans_thm t : forall w, Forall lan_shape t -> NoDup (map laddr t) -> (forall e, In e t -> ~ In (laddr e) (addrs w)) ->
  exists w', add_lans ds fam plen src_value t w = Some w' /\ (forall x, In x w -> In x w') /\
  forall e, In e t -> fam (fst (l_key e)) = true -> attached e -> exists l v, In (laddr e, l) w' /\ In (WGateway (snd (lan_address plen (l_key e))) v) l /\
   (snd (lan_address plen (l_key e)) = 1 -> In (WSource (src_value (snd (l_key e)))) l) /\
   exists cost dist, lan_read l v = Some (cost, dist) /\
   forall i x, 0 <= i < zlen ds -> zget (l_data e) i = Some x -> zget dist i = Some (l_dist x) /\ exists c, zget cost i = Some c /\ rounded (l_metric x) c.
Proof.
  induction t as [|e t IH]; intros w SH ND NW; cbn [add_lans].
  { exists w. split; [reflexivity|]. split; [auto|]. intros e []. }
  pose proof (Forall_inv SH) as SE. apply Forall_inv_tail in SH. cbn [map] in ND. inversion ND as [|y z N1 N2]; subst.
  destruct (fam (fst (l_key e))) eqn:FA.
  - destruct (add_lan_fresh e w SE FA (NW e (or_introl eq_refl))) as (ts & vec & _ & EA). set (l := ts ++ _) in EA. clearbody l. rewrite EA.
    destruct (IH (w ++ [(laddr e, l)]) SH N2) as (w' & E' & K & Q).
    { intros x X. unfold addrs. rewrite map_app. intros Y. apply in_app_or in Y as [Y|[Y|[]]]; [exact (NW x (or_intror X) Y)|]. cbn in Y. apply N1. rewrite Y. apply in_map, X. }
    exists w'. split; [exact E'|]. split; [intros x X; apply K, in_or_app; auto|]. intros x [<-|X] FX AX; [|apply Q; assumption].
    destruct (lan_thm e w SE FA (NW e (or_introl eq_refl)) AX) as (l2 & v & EA2 & R). rewrite EA in EA2. injection EA2 as EA2. apply app_inv_head in EA2. injection EA2 as <-.
    exists l, v. split; [apply K, in_or_app; right; left; reflexivity|]. exact R.
  - unfold add_lan. rewrite FA. cbn [negb]. destruct (IH w SH N2) as (w' & E' & K & Q); [intros x X; apply NW; right; exact X|]. exists w'. split; [exact E'|]. split; [exact K|].
    intros x [<-|X] FX AX; [congruence|apply Q; assumption].
Qed.
End P.

(** ** The set of attached networks *)
(** what was last said of network [k] in domain [dx] *)
Fixpoint last_said (dx : Z) (k : rkey) (os : list lop) (cur : option (Z * Z)) : option (Z * Z) :=
  match os with
  | [] => cur
  | LanAdd dx' k' m d :: os' => last_said dx k os' (if (dx' =? dx) && rkeqb k' k then Some (m, d) else cur)
  | LanDel dx' k' :: os' => last_said dx k os' (if (dx' =? dx) && rkeqb k' k then None else cur)
  end.
Definition lop_ok (o : lop) : Prop := match o with LanAdd dx _ _ _ | LanDel dx _ => 0 <= dx < MAXDOM end.
Lemma rkeqb_spec a b : reflect (a = b) (rkeqb a b).
Proof.
  destruct a as [a1 a2], b as [b1 b2]. unfold rkeqb. cbn [fst snd]. destruct (Z.eqb_spec a1 b1), (Z.eqb_spec a2 b2); cbn; constructor; congruence.
Qed.
Lemma get_put k e t : lan_get k (lan_put e t) = if rkeqb (l_key e) k then Some e else lan_get k t.
Proof.
  induction t as [|x t IH]; cbn [lan_put lan_get]; [reflexivity|]. destruct (rkeqb_spec (l_key x) (l_key e)) as [Q|Q]; cbn [lan_get].
  - destruct (rkeqb_spec (l_key e) k), (rkeqb_spec (l_key x) k); congruence.
  - rewrite IH. destruct (rkeqb_spec (l_key x) k), (rkeqb_spec (l_key e) k); congruence.
Qed.
Lemma get_del k k' t : lan_get k (lan_del k' t) = if rkeqb k' k then None else lan_get k t.
Proof.
  induction t as [|x t IH]; cbn [lan_del filter lan_get]; [now destruct (rkeqb k' k)|]. fold (lan_del k' t). destruct (rkeqb_spec (l_key x) k') as [Q|Q]; cbn [negb lan_get]; rewrite IH.
  - destruct (rkeqb_spec k' k), (rkeqb_spec (l_key x) k); congruence.
  - destruct (rkeqb_spec (l_key x) k), (rkeqb_spec k' k); congruence.
Qed.
Lemma put_keys e t : map l_key (lan_put e t) = map l_key t \/ (~ In (l_key e) (map l_key t) /\ map l_key (lan_put e t) = map l_key t ++ [l_key e]).
Proof.
  induction t as [|x t IH]; cbn [lan_put map]; [right; split; [intros []|reflexivity]|]. destruct (rkeqb_spec (l_key x) (l_key e)) as [Q|Q]; cbn [map]; [left; congruence|].
  destruct IH as [->|[N ->]]; [auto|]. right. split; [|reflexivity]. cbn [In]. tauto.
Qed.
Lemma put_nodup e t : NoDup (map l_key t) -> NoDup (map l_key (lan_put e t)).
Proof.
  intros N. destruct (put_keys e t) as [->|[X ->]]; [exact N|]. revert N X. generalize (map l_key t) as l. induction l as [|y l IH]; intros N X; cbn; [constructor; [intros []|constructor]|].
  inversion N as [|? ? A B]; subst. cbn in X. constructor; [|apply IH; tauto]. intros Z. apply in_app_or in Z as [Z|[Z|[]]]; [tauto|]. subst. tauto.
Qed.
Lemma get_in k t e : NoDup (map l_key t) -> (lan_get k t = Some e <-> In e t /\ l_key e = k).
Proof.
  induction t as [|x t IH]; cbn [lan_get In map]; intros N; [split; [discriminate|intros [[] _]]|]. inversion N as [|? ? A B]; subst. destruct (rkeqb_spec (l_key x) k) as [Q|Q].
  - split; [intros X; injection X as <-; auto|]. intros [[->|X] K]; [reflexivity|]. exfalso. apply A. rewrite Q, <- K. apply in_map, X.
  - rewrite (IH B). split; [tauto|]. intros [[->|X] K]; [contradiction|tauto].
Qed.
Definition shown (x : ldata) : option (Z * Z) := if l_active x then Some (l_metric x, l_dist x) else None.
Definition lan_inv (t : list lent) (f : Z -> rkey -> option (Z * Z)) : Prop :=
  NoDup (map l_key t) /\ Forall (fun e => zlen (l_data e) = MAXDOM /\ existsb l_active (l_data e) = true) t /\
  forall k, match lan_get k t with
            | Some e => forall dx x, zget (l_data e) dx = Some x -> shown x = f dx k
            | None => forall dx, 0 <= dx < MAXDOM -> f dx k = None
            end.
Lemma no_lan_get i x : zget no_lan i = Some x -> shown x = None.
Proof. unfold no_lan. rewrite zget_repeat. destruct (_ && _); [|discriminate]. intros X. injection X as <-. reflexivity. Qed.
Lemma zset_active data dx x data' : zset data dx x = Some data' -> l_active x = true -> existsb l_active data' = true.
Proof. intros Z1 A. apply existsb_exists. exists x. split; [|exact A]. apply (zget_In _ dx). rewrite (zget_zset _ _ _ _ _ Z1), Z.eqb_refl. reflexivity. Qed.
Lemma put_forall (P : lent -> Prop) e t : P e -> Forall P t -> Forall P (lan_put e t).
Proof. intros H F. induction F as [|x t X F IH]; cbn [lan_put]; [repeat constructor; exact H|]. destruct (rkeqb _ _); constructor; auto. Qed.
Definition f_set (f : Z -> rkey -> option (Z * Z)) (dx : Z) (k : rkey) (v : option (Z * Z)) : Z -> rkey -> option (Z * Z) :=
  fun i k' => if (dx =? i) && rkeqb k k' then v else f i k'.
Lemma lstep_ok o t f : lop_ok o -> lan_inv t f ->
  exists t', lstep o t = Some t' /\ lan_inv t' (match o with LanAdd dx k m d => f_set f dx k (Some (m, d)) | LanDel dx k => f_set f dx k None end).
Proof.
  intros OK (N & A & G). pose proof (G) as G0. destruct o as [dx k m d|dx k]; cbn [lop_ok lstep] in *.
  - unfold lan_add. specialize (G k). set (data := match lan_get k t with Some e => l_data e | None => no_lan end).
    assert (zlen data = MAXDOM) as LD.
    { unfold data. destruct (lan_get k t) as [e|] eqn:EG; [|reflexivity]. apply (get_in k t e N) in EG as [EG _]. rewrite Forall_forall in A. apply A, EG. }
    assert (forall i x, zget data i = Some x -> shown x = f i k) as LF.
    { unfold data. destruct (lan_get k t) as [e|] eqn:EG; [exact G|]. intros i x X. rewrite (no_lan_get i x X). symmetry. apply G. apply zget_bound in X. exact X. }
    clearbody data. destruct (zset_Some data dx {| l_metric := m; l_dist := d; l_active := true |}) as [data' Z1]; [rewrite LD; exact OK|]. rewrite Z1. eexists. split; [reflexivity|].
    split; [apply put_nodup, N|]. split.
    + apply put_forall; [|exact A]. cbn [l_data]. split; [rewrite (zset_len _ _ _ _ Z1); exact LD|]. apply (zset_active _ _ _ _ Z1). reflexivity.
    + intros k'. rewrite get_put. cbn [l_key]. unfold f_set. destruct (rkeqb_spec k k') as [<-|NK]; cbn [l_data].
      * intros i x X. rewrite (zget_zset _ _ _ _ _ Z1) in X. rewrite andb_true_r. destruct (Z.eqb_spec dx i), (Z.eqb_spec i dx); try congruence; [injection X as <-; reflexivity|apply LF, X].
      * specialize (G0 k'). destruct (lan_get k' t); intros; rewrite andb_false_r; apply G0; assumption.
  - unfold lan_remove. specialize (G k). destruct (lan_get k t) as [e|] eqn:EG.
    + pose proof EG as EG'. apply (get_in k t e N) in EG' as [IE KE]. rewrite Forall_forall in A. destruct (A e IE) as [LD EA]. destruct (zget_Some (l_data e) dx) as [x EX]; [rewrite LD; exact OK|]. rewrite EX.
      destruct (zset_Some (l_data e) dx {| l_metric := l_metric x; l_dist := l_dist x; l_active := false |}) as [data' Z1]; [rewrite LD; exact OK|]. rewrite Z1.
      assert (forall i y, zget data' i = Some y -> shown y = if dx =? i then None else f i k) as NEW.
      { intros i y Y. rewrite (zget_zset _ _ _ _ _ Z1) in Y. destruct (Z.eqb_spec i dx), (Z.eqb_spec dx i); try congruence; [injection Y as <-; reflexivity|apply G, Y]. }
      destruct (existsb l_active data') eqn:EX'.
      * eexists. split; [reflexivity|]. split; [apply put_nodup, N|]. split.
        -- apply put_forall; [|apply Forall_forall; exact A]. cbn [l_data]. split; [rewrite (zset_len _ _ _ _ Z1); exact LD|exact EX'].
        -- intros k'. rewrite get_put. cbn [l_key]. unfold f_set. destruct (rkeqb_spec k k') as [<-|NK]; cbn [l_data].
           ++ intros i y Y. rewrite andb_true_r. apply NEW, Y.
           ++ specialize (G0 k'). destruct (lan_get k' t); intros; rewrite andb_false_r; apply G0; assumption.
      * eexists. split; [reflexivity|]. split; [|split].
        -- clear - N. unfold lan_del. induction t as [|x t IH]; cbn [filter map]; [constructor|]. cbn [map] in N. inversion N as [|? ? P Q]; subst. destruct (negb (rkeqb (l_key x) k)); [|apply IH, Q]. cbn [map]. constructor; [|apply IH, Q].
           intros X. apply P. apply in_map_iff in X as (y & Y1 & Y2). apply filter_In in Y2 as [Y2 _]. rewrite <- Y1. apply in_map, Y2.
        -- apply Forall_forall. intros y Y. apply filter_In in Y as [Y _]. apply A, Y.
        -- intros k'. rewrite get_del. unfold f_set. destruct (rkeqb_spec k k') as [<-|NK].
           ++ intros i I1. rewrite andb_true_r. destruct (zget_Some data' i) as [y Y]; [rewrite (zset_len _ _ _ _ Z1), LD; exact I1|]. rewrite <- (NEW i y Y). unfold shown. destruct (l_active y) eqn:AY; [|reflexivity].
              exfalso. assert (existsb l_active data' = true); [|congruence]. apply existsb_exists. exists y. split; [apply (zget_In _ _ _ Y)|exact AY].
           ++ specialize (G0 k'). destruct (lan_get k' t); intros; rewrite andb_false_r; apply G0; assumption.
    + eexists. split; [reflexivity|]. split; [exact N|]. split; [exact A|]. intros k'. specialize (G0 k'). unfold f_set. destruct (rkeqb_spec k k') as [<-|NK].
      * rewrite EG. intros i I1. rewrite andb_true_r. destruct (dx =? i); [reflexivity|apply G, I1].
      * destruct (lan_get k' t); intros; rewrite andb_false_r; apply G0; assumption.
Qed.
Lemma lrun_ok os : forall t f, Forall lop_ok os -> lan_inv t f -> exists t', lrun os t = Some t' /\ lan_inv t' (fun dx k => last_said dx k os (f dx k)).
Proof.
  induction os as [|o os IH]; intros t f OK I1; cbn [lrun].
  - exists t. split; [reflexivity|exact I1].
  - destruct (lstep_ok o t f (Forall_inv OK) I1) as (t1 & E1 & I2). rewrite E1. destruct (IH t1 _ (Forall_inv_tail OK) I2) as (t2 & E2 & I3). exists t2. split; [exact E2|].
    destruct I3 as (A & B & C). split; [exact A|]. split; [exact B|]. intros k. specialize (C k). destruct o as [dx0 k0 m d|dx0 k0]; cbn [last_said]; unfold f_set in C; destruct (lan_get k t2); exact C.
Qed.

(** ** C125: the set of attached networks *)
(** after any configuration and reconfiguration: a network is in the set iff it is
    attached in some domain; there is one entry for it; per domain it has the metric
    and distance given last, and is marked attached iff it was not removed since *)
Theorem C125_attached_networks (os : list lop) : Forall lop_ok os ->
  exists t, lrun os [] = Some t /\ NoDup (map l_key t) /\
  (forall k, In k (map l_key t) <-> exists dx, 0 <= dx < MAXDOM /\ last_said dx k os None <> None) /\
  (forall e dx, In e t -> 0 <= dx < MAXDOM -> exists x, zget (l_data e) dx = Some x /\
     (forall m d, (l_active x = true /\ l_metric x = m /\ l_dist x = d) <-> last_said dx (l_key e) os None = Some (m, d))).
Proof.
  intros OK. destruct (lrun_ok os [] (fun _ _ => None) OK) as (t & E & N & A & G).
  { split; [constructor|]. split; [constructor|]. intros k dx _. reflexivity. }
  exists t. split; [exact E|]. split; [exact N|]. rewrite Forall_forall in A.
  assert (forall e dx, In e t -> 0 <= dx < MAXDOM -> exists x, zget (l_data e) dx = Some x /\ shown x = last_said dx (l_key e) os None) as SH.
  { intros e dx IE B. destruct (A e IE) as [LD _]. destruct (zget_Some (l_data e) dx) as [x EX]; [rewrite LD; exact B|]. exists x. split; [exact EX|]. specialize (G (l_key e)).
    rewrite (proj2 (get_in (l_key e) t e N) (conj IE eq_refl)) in G. apply G, EX. }
  split.
  - intros k. split.
    + intros IK. apply in_map_iff in IK as (e & KE & IE). destruct (A e IE) as [LD AE]. apply existsb_exists in AE as (x & X1 & X2). apply In_nth_error in X1 as (n & X1).
      assert (zget (l_data e) (Z.of_nat n) = Some x) as X' by (unfold zget; destruct (Z.ltb_spec (Z.of_nat n) 0); [lia|]; rewrite Nat2Z.id; exact X1).
      exists (Z.of_nat n). pose proof (zget_bound _ _ _ X') as B. rewrite LD in B. split; [exact B|]. destruct (SH e _ IE B) as (y & Y1 & Y2). rewrite X' in Y1. injection Y1 as <-. unfold shown in Y2. rewrite X2, KE in Y2. congruence.
    + intros (dx & B & NN). specialize (G k). destruct (lan_get k t) as [e|] eqn:EG; [|exfalso; apply NN, G, B]. apply (get_in k t e N) in EG as [IE <-]. apply in_map, IE.
  - intros e dx IE B. destruct (SH e dx IE B) as (x & X1 & X2). exists x. split; [exact X1|]. intros m d. rewrite <- X2. unfold shown. destruct (l_active x); [|split; [intros (Q & _); discriminate|discriminate]].
    split; [intros (_ & -> & ->); reflexivity|]. intros Q. injection Q as -> ->. auto.
Qed.
Example C125_ex : lrun [LanAdd 0 (5, 0) 100 2; LanAdd 1 (5, 0) 200 3; LanAdd 0 (6, 0) 1 1; LanDel 0 (6, 0); LanDel 0 (5, 0)] [] =
  Some [{| l_key := (5, 0); l_same := false; l_data := [ {| l_metric := 100; l_dist := 2; l_active := false |}; {| l_metric := 200; l_dist := 3; l_active := true |};
    {| l_metric := METRIC_INFINITE; l_dist := 0; l_active := false |}; {| l_metric := METRIC_INFINITE; l_dist := 0; l_active := false |}] |}].
Proof. reflexivity. Qed.
(** the mark "same distance everywhere", where networks were only added and no distance is 0 *)
Theorem C125_same_distance_partial (k : rkey) (m : Z) (dx d : Z) (t t' : list lent) (e : lent) :
  lan_add dx k m d t = Some t' -> In e t' -> l_key e = k -> NoDup (map l_key t) -> (forall x, In x (l_data e) -> l_active x = true -> 0 < l_dist x) ->
  (l_same e = true <-> forall x y, In x (l_data e) -> In y (l_data e) -> l_active x = true -> l_active y = true -> l_dist x = l_dist y).
Proof.
  intros E IE KE N P. unfold lan_add in E. set (data := match lan_get k t with Some e => l_data e | None => no_lan end) in E. clearbody data.
  destruct (zset data dx _) as [data'|]; [|discriminate]. injection E as <-.
  assert (lan_get k (lan_put {| l_key := k; l_same := same_distance 0 data'; l_data := data' |} t) = Some e) as G by (apply get_in; [apply put_nodup, N|auto]).
  rewrite get_put in G. cbn [l_key] in G. destruct (rkeqb_spec k k); [|congruence]. injection G as <-. cbn [l_same l_data] in *.
  rewrite (same_meaning data' 0) by (lia || exact P). split.
  - intros (c & _ & C) x y X Y AX AY. rewrite (C x X AX), (C y Y AY). reflexivity.
  - intros H. destruct (existsb l_active data') eqn:X.
    + apply existsb_exists in X as (x & X1 & X2). exists (l_dist x). split; [lia|]. intros y Y AY. apply H; assumption.
    + exists 0. split; [lia|]. intros y Y AY. assert (existsb l_active data' = true) by (apply existsb_exists; eauto). congruence.
Qed.
(** distances 0 and 5 are "the same"; and the mark is not set again when the only
    different domain goes away *)
Theorem C125_same_distance_refuted : exists os t e x y, Forall lop_ok os /\ lrun os [] = Some t /\ In e t /\ l_same e = true /\
  In x (l_data e) /\ In y (l_data e) /\ l_active x = true /\ l_active y = true /\ l_dist x = 0 /\ l_dist y = 5.
Proof.
  exists [LanAdd 0 (5, 0) 100 0; LanAdd 1 (5, 0) 100 5]. eexists. eexists. eexists. eexists. split; [repeat (apply Forall_cons; [vm_compute; split; congruence|]); apply Forall_nil|].
  split; [vm_compute; reflexivity|]. split; [left; reflexivity|]. split; [reflexivity|]. split; [left; reflexivity|]. split; [right; left; reflexivity|]. repeat split.
Qed.

(** ** C123: MPR selectors in TC messages *)
(** The message can be written, no address is in it twice.  It has exactly the
    addresses of the symmetric neighbors that selected this router as MPR in some
    domain, of the family of the message, that are the originator address of the
    neighbor or routable (when such are to be sent), besides the attached networks.
    A receiver gets from an address that is not also an attached network: whether
    it is originator and routable, and per domain the metrics rounded up (C07), or
    none for a domain that was not selected or has no valid incoming metric.
    (partial: addresses of neighbors that are attached networks too) *)
Theorem C123_tc_neighbors_partial (ds : list dom) (fam routable : Z -> bool) (nhdp_conf : bool) (plen : Z -> Z) (src_value : Z -> bytes) (nbs : list tnb) (t : list lent) :
  DomSpec.doms_ok ds -> Forall nb_shape nbs -> Forall lan_shape t -> NoDup (flat_map b_addrs nbs) ->
  exists w, tc_addresses ds fam routable nhdp_conf plen src_value nbs t = Some w /\ NoDup (addrs w) /\
  (forall a, In a (addrs w) <-> ((exists nb, In nb nbs /\ announced ds fam routable nhdp_conf nb a) \/ exists e, In e t /\ fam (fst (l_key e)) = true /\ a = laddr plen e)) /\
  (forall a l, In (a, l) w -> (forall e, In e t -> laddr plen e <> a) -> exists nb, In nb nbs /\ announced ds fam routable nhdp_conf nb a /\ neighbor_told ds routable nb a l).
Proof. intros OK SN SL ND. exact (neighbors_thm ds fam routable nhdp_conf plen src_value OK nbs t SN SL ND). Qed.

Definition xd : list dom := [DomModel.mkDom 0 7 false 1 1; DomModel.mkDom 4 7 false 1 1].
Lemma xd_ok : DomSpec.doms_ok xd.
Proof.
  split; [vm_compute; split; congruence|]. split; [repeat constructor; cbn; intuition congruence|].
  repeat (apply Forall_cons; [vm_compute; intuition congruence|]). apply Forall_nil.
Qed.
Definition xnb (o : option Z) (m0 m1 : bool) (l : list Z) : tnb := {| b_sym := true; b_mpr := [m0; m1; false; false]; b_in := [1003; 301; METRIC_INFINITE; METRIC_INFINITE];
  b_out := [257; METRIC_INFINITE; METRIC_INFINITE; METRIC_INFINITE]; b_orig := o; b_addrs := l |}.
Lemma xnb_shape o m0 m1 l : nb_shape (xnb o m0 m1 l).
Proof.
  split; [reflexivity|]. split; [reflexivity|]. split; [reflexivity|]. split; cbn [xnb b_in b_out];
    repeat (apply Forall_cons; [vm_compute; split; congruence|]); apply Forall_nil.
Qed.
Definition xany (_ : Z) : bool := true.
Definition xlen (a : Z) : Z := if a =? 0 then 0 else 24.
Definition xsrc (a : Z) : bytes := [24; a].
Example C123_ex : exists nbs t w, Forall nb_shape nbs /\ Forall lan_shape t /\ NoDup (flat_map b_addrs nbs) /\
  lrun [LanAdd 0 (50, 0) 2 3; LanAdd 1 (50, 0) 2 4] [] = Some t /\
  tc_addresses xd xany (fun a => 10 <? a) true xlen xsrc nbs t = Some w /\ map fst w = [7; 11; 12; 50] /\
  (forall l, In (7, l) w -> exists ci co, l <> [] /\ read_costs xd (mets l) no_cost no_cost = Some (ci, co) /\ firstn 2 ci = [1004; 302] /\ firstn 2 co = [258; METRIC_INFINITE]).
Proof.
  exists [xnb (Some 7) true true [7; 8; 11]; xnb None false true [12; 9]; xnb (Some 20) false false [20; 21]]. eexists. eexists.
  split; [repeat (apply Forall_cons; [apply xnb_shape|]); apply Forall_nil|]. split; [|split; [|split; [vm_compute; reflexivity|]]].
  2:{ cbn. repeat (constructor; [cbn; intuition congruence|]). constructor. }
  { repeat (apply Forall_cons; [split; [reflexivity|]; cbn [l_data]; repeat (apply Forall_cons; [vm_compute; split; congruence|]); apply Forall_nil|]). apply Forall_nil. }
  split; [vm_compute; reflexivity|]. split; [reflexivity|]. intros l [H|[H|[H|[H|[]]]]]; try discriminate. injection H as <-. eexists. eexists. split; [discriminate|]. split; [vm_compute; reflexivity|]. split; reflexivity.
Qed.
(** an attached network that is also a neighbor address: the costs told for the
    network are those of the neighbor *)
Theorem C123_shared_address_refuted : exists nbs t w l ci co, Forall nb_shape nbs /\ NoDup (flat_map b_addrs nbs) /\
  lrun [LanAdd 0 (7, 0) 2 3; LanAdd 1 (7, 0) 2 3] [] = Some t /\ tc_addresses xd xany xany true xlen xsrc nbs t = Some w /\
  In (7, l) w /\ (exists v, In (WGateway 0 v) l) /\ read_costs xd (mets l) no_cost no_cost = Some (ci, co) /\ zget co 0 = Some 258 /\ ~ rounded 2 258.
Proof.
  exists [xnb (Some 7) true true [7]]. eexists. eexists. eexists. eexists. eexists. split; [repeat (apply Forall_cons; [apply xnb_shape|]); apply Forall_nil|].
  split; [repeat constructor; intros []|]. split; [vm_compute; reflexivity|]. split; [vm_compute; reflexivity|]. split; [left; reflexivity|]. split; [eexists; cbn [In]; intuition|]. split; [vm_compute; reflexivity|]. split; [reflexivity|].
  intros (code & (C1 & C2 & C3) & E). specialize (C3 1 ltac:(lia)). assert (code <= 1) as L by (apply C3; vm_compute; congruence).
  assert (code = 0 \/ code = 1) as [-> | ->] by lia; vm_compute in E; discriminate.
Qed.

(** ** C124: attached networks in TC messages *)
(** address and kind of gateway TLV of a network: 0 for a destination, 1 for one
    with source prefix, 2 for a source prefix alone *)
Definition net_kind (plen : Z -> Z) (k : rkey) : Z := if plen (snd k) =? 0 then 0 else if plen (fst k) =? 0 then 2 else 1.
Definition net_addr (plen : Z -> Z) (k : rkey) : Z := if net_kind plen k =? 2 then snd k else fst k.
Lemma net_ok plen k : (forall a, 0 <= plen a) -> lan_address plen k = (net_addr plen k, net_kind plen k).
Proof.
  intros P. unfold lan_address, net_addr, net_kind. pose proof (P (fst k)). destruct (Z.eqb_spec (plen (snd k)) 0).
  - rewrite orb_true_r. reflexivity.
  - rewrite orb_false_r. destruct (Z.eqb_spec (plen (fst k)) 0), (Z.gtb_spec (plen (fst k)) 0); try lia; reflexivity.
Qed.
(** A network attached in all domains, with a valid metric and a distance that is
    not 0 in each, with an address of its own: the message has its address, a
    gateway TLV of the right kind, the source prefix if there are both; a receiver
    with the same domains gets for each of them the distance and the metric
    rounded up. *)
Theorem C124_tc_networks_partial (ds : list dom) (fam routable : Z -> bool) (nhdp_conf : bool) (plen : Z -> Z) (src_value : Z -> bytes) (nbs : list tnb) (t : list lent) (e : lent) :
  DomSpec.doms_ok ds -> (forall a, 0 <= plen a) -> Forall nb_shape nbs -> Forall lan_shape t -> NoDup (flat_map b_addrs nbs) ->
  NoDup (map (fun e => net_addr plen (l_key e)) t) -> (forall x, In x t -> ~ In (net_addr plen (l_key x)) (flat_map b_addrs nbs)) ->
  In e t -> fam (fst (l_key e)) = true -> attached ds e ->
  exists w l v, tc_addresses ds fam routable nhdp_conf plen src_value nbs t = Some w /\ In (net_addr plen (l_key e), l) w /\
   In (WGateway (net_kind plen (l_key e)) v) l /\ (net_kind plen (l_key e) = 1 -> In (WSource (src_value (snd (l_key e)))) l) /\
   exists cost dist, lan_read ds l v = Some (cost, dist) /\
   forall i x, 0 <= i < zlen ds -> zget (l_data e) i = Some x -> zget dist i = Some (l_dist x) /\ exists c, zget cost i = Some c /\ rounded (l_metric x) c.
Proof.
  intros OK P SN SL ND NL NX IE FA AT. rewrite (tc_shape ds fam routable nhdp_conf plen src_value OK nbs t SN ND).
  assert (forall x, laddr plen x = net_addr plen (l_key x)) as LA by (intros x; unfold laddr; rewrite net_ok by exact P; reflexivity).
  destruct (lans_thm ds fam routable plen src_value OK t (flat_map (nb_part ds fam routable nhdp_conf) nbs) SL) as (w & E & _ & Q).
  - rewrite (map_ext _ _ LA). exact NL.
  - intros x X Y. apply (NX x X). rewrite <- LA. rewrite in_addrs in Y. destruct Y as (l & Y). apply in_flat_map in Y as (nb & N1 & N2). apply in_flat_map. exists nb. split; [exact N1|].
    eapply nb_part_addrs. apply in_addrs. exists l. exact N2.
  - destruct (Q e IE FA AT) as (l & v & A & B & C & D). rewrite LA in A. rewrite (net_ok plen (l_key e) P) in B, C. exists w, l, v. split; [exact E|]. split; [exact A|]. split; [exact B|]. split; [exact C|exact D].
Qed.
Ltac lshape := repeat (apply Forall_cons; [split; [reflexivity|]; cbn [l_data]; repeat (apply Forall_cons; [vm_compute; split; congruence|]); apply Forall_nil|]); apply Forall_nil.
Example C124_ex : exists t e w l v, lrun [LanAdd 0 (50, 60) 257 3; LanAdd 1 (50, 60) 2 4; LanAdd 0 (51, 0) 9 9; LanAdd 1 (51, 0) 9 9] [] = Some t /\ In e t /\ Forall lan_shape t /\
  NoDup (map (fun e => net_addr xlen (l_key e)) t) /\ (forall a, 0 <= xlen a) /\ attached xd e /\
  tc_addresses xd xany xany true xlen xsrc [] t = Some w /\ In (50, l) w /\ In (WGateway 1 v) l /\ In (WSource [24; 60]) l /\
  lan_read xd l v = Some ([258; 2; METRIC_INFINITE; METRIC_INFINITE], [3; 4; 0; 0]).
Proof.
  eexists. eexists. eexists. eexists. eexists. split; [vm_compute; reflexivity|]. split; [left; reflexivity|]. split; [lshape|]. split; [vm_compute; repeat (constructor; [cbn; intuition congruence|]); constructor|].
  split; [intros a; unfold xlen; destruct (a =? 0); lia|]. split.
  - split; [reflexivity|]. intros i x X. pose proof (zget_bound _ _ _ X) as B. vm_compute in B.
    assert (i = 0 \/ i = 1 \/ i = 2 \/ i = 3) as [->|[->|[->| ->]]] by (destruct B as [B1 B2]; clear - B1 B2; destruct i as [|p|p]; [lia| |exfalso; apply B1; reflexivity]; change (Z.pos p < 4) in B2; lia);
    vm_compute in X; injection X as <-; vm_compute; intuition congruence.
  - split; [vm_compute; reflexivity|]. split; [left; reflexivity|]. split; [right; right; left; reflexivity|]. split; [right; right; right; left; reflexivity|]. vm_compute. reflexivity.
Qed.
(** removed from one of two domains: still announced there *)
Theorem C124_removed_domain_refuted : exists os t w l v cost dist, last_said 0 (50, 0) os None = None /\ Forall lop_ok os /\ lrun os [] = Some t /\
  tc_addresses xd xany xany true xlen xsrc [] t = Some w /\ In (50, l) w /\ In (WGateway 0 v) l /\ lan_read xd l v = Some (cost, dist) /\ zget cost 0 = Some 2 /\ zget dist 0 = Some 3.
Proof.
  exists [LanAdd 0 (50, 0) 2 3; LanAdd 1 (50, 0) 2 3; LanDel 0 (50, 0)]. eexists. eexists. eexists. eexists. eexists. eexists. split; [reflexivity|].
  split; [repeat (apply Forall_cons; [vm_compute; split; congruence|]); apply Forall_nil|]. split; [vm_compute; reflexivity|]. split; [vm_compute; reflexivity|]. split; [left; reflexivity|].
  split; [right; right; left; reflexivity|]. split; [vm_compute; reflexivity|]. split; reflexivity.
Qed.
(** distances 0 and 5: told as 0 and 0 *)
Theorem C124_zero_distance_refuted : exists os t w l v cost dist, last_said 1 (50, 0) os None = Some (2, 5) /\ Forall lop_ok os /\ lrun os [] = Some t /\
  tc_addresses xd xany xany true xlen xsrc [] t = Some w /\ In (50, l) w /\ In (WGateway 0 v) l /\ lan_read xd l v = Some (cost, dist) /\ zget dist 1 = Some 0.
Proof.
  exists [LanAdd 0 (50, 0) 2 0; LanAdd 1 (50, 0) 2 5]. eexists. eexists. eexists. eexists. eexists. eexists. split; [reflexivity|].
  split; [repeat (apply Forall_cons; [vm_compute; split; congruence|]); apply Forall_nil|]. split; [vm_compute; reflexivity|]. split; [vm_compute; reflexivity|]. split; [left; reflexivity|].
  split; [right; right; left; reflexivity|]. split; [vm_compute; reflexivity|]. reflexivity.
Qed.
(** attached in the second domain only, with distance 3: told as 0 *)
Theorem C124_second_domain_refuted : exists os t w l v cost dist, last_said 1 (50, 0) os None = Some (2, 3) /\ Forall lop_ok os /\ lrun os [] = Some t /\
  tc_addresses xd xany xany true xlen xsrc [] t = Some w /\ In (50, l) w /\ In (WGateway 0 v) l /\ lan_read xd l v = Some (cost, dist) /\ zget cost 1 = Some 2 /\ zget dist 1 = Some 0.
Proof.
  exists [LanAdd 1 (50, 0) 2 3]. eexists. eexists. eexists. eexists. eexists. eexists. split; [reflexivity|].
  split; [repeat (apply Forall_cons; [vm_compute; split; congruence|]); apply Forall_nil|]. split; [vm_compute; reflexivity|]. split; [vm_compute; reflexivity|]. split; [left; reflexivity|].
  split; [right; left; reflexivity|]. split; [vm_compute; reflexivity|]. split; reflexivity.
Qed.
(** two networks with the same destination and different source prefixes: the
    second source prefix is not in the message *)
Theorem C124_source_prefixes_refuted : exists os t w, last_said 0 (50, 61) os None = Some (9, 9) /\ Forall lop_ok os /\ lrun os [] = Some t /\
  tc_addresses xd xany xany true xlen xsrc [] t = Some w /\ forall a l v, In (a, l) w -> In (WSource v) l -> v = xsrc 60.
Proof.
  exists [LanAdd 0 (50, 60) 2 3; LanAdd 0 (50, 61) 9 9]. eexists. eexists. split; [reflexivity|].
  split; [repeat (apply Forall_cons; [vm_compute; split; congruence|]); apply Forall_nil|]. split; [vm_compute; reflexivity|]. split; [vm_compute; reflexivity|].
  intros a l v [H|[]] S1. injection H as <- <-. destruct S1 as [X|[X|[X|[]]]]; try discriminate. injection X as <-. reflexivity.
Qed.
Print Assumptions C123_tc_neighbors_partial.
Print Assumptions C124_tc_networks_partial.
Print Assumptions C125_attached_networks.
