(** What the reader shows of a generated message. *)
From Coq Require Import Permutation.
From Verif Require Import Base BitsModel BufLemmas SplitLemmas NetaddrModel ReaderModel ReadDispModel WireSpec WireReadProps WriterProofs
  GenModel GenSpec GenLoop GenTerm GenTlv GenBlock GenChain.

(** what a consumer has been shown about an address that was added to the message *)
Definition shown_as (a : gaddr) (x : ctx) : Prop :=
  x_kind x = KAddress /\ exists r, from_binary_prefix (ga_bytes a) 0 (ga_plen a) = Some (r, x_addr x).
Definition shown_tlv (pkt : bytes) (g : gtlv) (t : tlv) : Prop :=
  t_type t = gt_type g /\ t_ext t = gt_ext g /\ t_length t = zlen (gt_value g) /\
  (gt_value g <> [] -> exists off, t_single t = Some off /\ holds pkt off (gt_value g)).
Definition shown (pkt : bytes) (tr : list event) (k : consumer) (a : gaddr) : Prop :=
  (c_start k = true -> exists x, shown_as a x /\ In (EvStart (c_id k) x) tr) /\
  (c_tlv k = true -> forall g, In g (ga_tlvs a) -> exists x t, shown_as a x /\ shown_tlv pkt g t /\ In (EvTlv (c_id k) x t) tr).

Lemma enc_block_pos b : 0 < zlen (enc_block b).
Proof. unfold enc_block, enc_addrs. rewrite <- !app_assoc. cbn [app]. rewrite !zlen_cons. match goal with |- context [zlen ?l] => pose proof (zlen_nonneg l) end. lia. Qed.
(** the place of a block tells which one it is *)
Lemma same_block : forall l1 b l2 l1' b' l2', l1 ++ b :: l2 = l1' ++ b' :: l2' ->
  zlen (flat_map enc_block (b :: l2)) = zlen (flat_map enc_block (b' :: l2')) -> l1 = l1' /\ b = b' /\ l2 = l2'.
Proof.
  assert (X : forall x l b r, zlen (flat_map enc_block (b :: r)) < zlen (flat_map enc_block (x :: l ++ b :: r))).
  { intros x l b r. cbn [flat_map]. rewrite flat_map_app. cbn [flat_map]. rewrite !zlen_app. pose proof (enc_block_pos x).
    pose proof (zlen_nonneg (flat_map enc_block l)). lia. }
  induction l1 as [|x l1 IH]; intros b l2 [|x' l1'] b' l2' E L; cbn [app] in E; injection E as E1 E2; subst.
  - auto.
  - exfalso. specialize (X x' l1' b' l2'). lia.
  - exfalso. specialize (X b' l1 b l2). lia.
  - destruct (IH _ _ _ _ _ E2 L) as (-> & -> & ->). auto.
Qed.

Lemma concat_pick {A} : forall (bs : list (list A)) x, In x (concat bs) -> exists l1 b l2 i, bs = l1 ++ b :: l2 /\ zget b i = Some x.
Proof.
  intros bs x I. apply in_concat in I as (b & B & X). apply in_split in B as (l1 & l2 & ->). apply In_zget in X as [i X]. eauto 6.
Qed.

Lemma says_shown c f (SY : says c f) :
  exists bs, fr_bytes f = flat_map enc_block bs /\ Forall (wf_block (gc_al c)) bs /\
    forall cb alloc fwd pcons mcons m p before M after k,
      wf_pkt p -> (forall n, alloc n = true) -> (forall h, a_res (cb h) = OKAY) ->
      wp_msgs p = before ++ M :: after -> wm_addrlen M = gc_al c -> wm_blocks M = bs ->
      In k mcons -> (c_default k = true \/ c_msgid k = wm_type M) -> c_addrblock k = true ->
      exists tr m', handle_packet cb (enc_pkt p) alloc fwd pcons mcons m = Ok (OKAY, tr, m') /\
        forall q, In q (fr_members f) -> exists a, zget (gc_addrs c) q = Some a /\ shown (enc_pkt p) tr k a.
Proof.
  destruct SY as (bs & EB & EA & F). exists (map fst bs). split; [exact EB|]. split.
  { rewrite Forall_forall in F |- *. intros b B. apply in_map_iff in B as (x & <- & X). now apply F. }
  intros cb alloc fwd pcons mcons m p before M after k W AL CB EM LM BM IK HK KA.
  destruct (C58_nothing_missed cb alloc fwd pcons mcons m p W AL CB) as (tr & m' & H & _ & T). exists tr, m'. split; [exact H|].
  intros q IQ.
  assert (IA : In (zget (gc_addrs c) q) (map Some (concat (map snd bs)))).
  { rewrite <- EA. unfold addresses_of. now apply in_map. }
  apply in_map_iff in IA as (a & GA & IA). exists a. split; [now symmetry|].
  destruct (concat_pick _ _ IA) as (l1 & xs & l2 & i & ES & GX).
  assert (exists b1 wb b2, bs = b1 ++ (wb, xs) :: b2) as (b1 & wb & b2 & ->).
  { clear -ES. revert l1 ES. induction bs as [|[w y] bs IH]; intros l1 ES; [destruct l1; discriminate|]. destruct l1 as [|y' l1].
    - cbn in ES. injection ES as -> _. exists [], w, bs. reflexivity.
    - cbn in ES. injection ES as _ ES. destruct (IH l1 ES) as (b1 & wb & b2 & ->). exists ((w, y) :: b1), wb, b2. reflexivity. }
  rewrite Forall_forall in F. destruct (F (wb, xs)) as (WB & [NX HA] & HT); [apply in_or_app; right; now left|]. cbn [fst snd] in *.
  destruct (HA i a GX) as (AD & PL). specialize (HT i a GX).
  specialize (T before M after k EM IK HK). unfold told_message in T. rewrite KA in T.
  rewrite map_app in BM. cbn [map fst] in BM.
  specialize (T (map fst b1) wb (map fst b2) i BM ltac:(apply zget_bound in GX; lia)). destruct T as [T1 T2].
  set (start := zlen (enc_pkt p) - zlen (flat_map enc_msg (M :: after))) in *.
  assert (SA : forall x, in_message (wp_seqno p) start M x (wb_num wb) i (wb_tlvs wb) /\ x_kind x = KAddress /\ x_index x = i /\
      x_block x = Some (start + msg_size M - zlen (flat_map enc_block (wb :: map fst b2))) -> shown_as a x).
  { intros x ((_ & _ & D) & KX & IX & BX). split; [exact KX|]. destruct D as [(K & _)|(_ & u1 & b' & u2 & a' & p' & r & E & B' & _ & I' & _ & A' & P' & FB)]; [congruence|].
    rewrite BX in B'. apply some_inj in B'. rewrite BM in E. destruct (same_block _ _ _ _ _ _ E ltac:(lia)) as (_ & <- & _).
    rewrite AD in A'. injection A' as <-. rewrite LM, PL in P'. injection P' as <-. eauto. }
  split.
  - intros CS. destruct (T1 CS) as (x & PX & IX). exists x. split; [now apply SA|exact IX].
  - intros CT g IG.
    assert (IV : In (view g) (map view (ga_tlvs a))) by now apply in_map.
    apply (Permutation_in _ (Permutation_sym HT)) in IV. unfold tlvs_at in IV. apply in_map_iff in IV as (w & VW & IW).
    apply filter_In in IW as [IW CW]. unfold concernsb in CW. apply andb_prop in CW as [C1 C2]. apply Z.leb_le in C1, C2.
    destruct (T2 CT w IW ltac:(right; lia)) as (x & t & PX & (S1 & S2 & _ & S4 & S5) & IX). exists x, t. split; [now apply SA|].
    split; [|exact IX]. unfold view in VW. injection VW as V1 V2 V3. rewrite V3 in S4, S5. unfold shown_tlv. rewrite <- V1, <- V2. auto.
Qed.

(** a packet with nothing but a message of type 1 with these address blocks *)
Definition packet_of (c : gcfg) (f : frag) : bytes :=
  0 :: 1 :: (gc_al c - 1) :: be16 (6 + zlen (fr_bytes f)) ++ [0; 0] ++ fr_bytes f.
Definition listener : consumer :=
  {| c_id := 1; c_order := 0; c_default := true; c_msgid := 0; c_addrblock := true; c_start := true; c_tlv := true; c_block := false;
     c_failed := false; c_end := false; c_entries := [] |}.
Definition receive (c : gcfg) (f : frag) :=
  handle_packet (fun _ => {| a_res := OKAY; a_dnf := false; a_drops := [] |}) (packet_of c f) (fun _ => true) false [] [listener]
    {| m_n := O; m_tlv := 0; m_addr := 0 |}.
Lemma says_received c f : says c f -> 1 <= gc_al c <= 16 -> zlen (fr_bytes f) < 65000 ->
  exists tr m', receive c f = Ok (OKAY, tr, m') /\
    forall q, In q (fr_members f) -> exists a, zget (gc_addrs c) q = Some a /\ shown (packet_of c f) tr listener a.
Proof.
  intros S AL L. destruct (says_shown c f S) as (bs & E & WF & H).
  set (M := {| wm_type := 1; wm_addrlen := gc_al c; wm_orig := None; wm_hoplimit := None; wm_hopcount := None; wm_seqno := None;
               wm_tlvs := []; wm_blocks := bs |}).
  set (p := {| wp_seqno := None; wp_tlvs := None; wp_msgs := [M] |}).
  assert (SZ : msg_size M = 6 + zlen (fr_bytes f)).
  { unfold msg_size, enc_msg_rest. cbn [M wm_orig wm_hoplimit wm_hopcount wm_seqno wm_tlvs wm_blocks opt1 app]. rewrite <- E.
    unfold enc_tlvs. cbn [flat_map]. rewrite app_nil_r. change (zlen []) with 0. unfold be16. cbn [app]. rewrite !zlen_cons. lia. }
  assert (EP : enc_pkt p = packet_of c f).
  { unfold enc_pkt, packet_of. cbn [p wp_seqno wp_tlvs wp_msgs has app flat_map]. rewrite app_nil_r. unfold enc_msg. rewrite SZ.
    unfold enc_msg_rest, msg_flags. cbn [M wm_type wm_addrlen wm_orig wm_hoplimit wm_hopcount wm_seqno wm_tlvs wm_blocks opt1 app has]. rewrite <- E. reflexivity. }
  assert (W : wf_pkt p).
  { split; [discriminate|]. split; [discriminate|]. split.
    - constructor; [|constructor]. unfold wf_msg. cbn [M wm_type wm_addrlen wm_orig wm_hoplimit wm_hopcount wm_seqno wm_tlvs wm_blocks].
      split; [unfold is_u8; lia|]. split; [exact AL|]. do 4 (split; [discriminate|]). split; [constructor|]. split; [exact WF|]. fold M. rewrite SZ. lia.
    - rewrite EP. unfold packet_of. rewrite !zlen_cons, !zlen_app. unfold be16. rewrite !zlen_cons. change (zlen []) with 0. lia. }
  unfold receive. rewrite <- EP.
  apply (H (fun _ => {| a_res := OKAY; a_dnf := false; a_drops := [] |}) (fun _ => true) false [] [listener] {| m_n := O; m_tlv := 0; m_addr := 0 |} p [] M [] listener); auto.
  now left.
Qed.

(** a test of what was received *)
Definition na_eqb (x y : netaddr) : bool := beqb (na_addr x) (na_addr y) && (na_type x =? na_type y) && (na_plen x =? na_plen y).
Definition starts (tr : list event) (a : gaddr) : bool :=
  existsb (fun e => match e with
                    | EvStart _ x => match from_binary_prefix (ga_bytes a) 0 (ga_plen a) with Some (_, n) => na_eqb n (x_addr x) | None => false end
                    | _ => false
                    end) tr.
Definition has_tlv (pkt : bytes) (tr : list event) (a : gaddr) (g : gtlv) : bool :=
  existsb (fun e => match e with
                    | EvTlv _ x t =>
                      match from_binary_prefix (ga_bytes a) 0 (ga_plen a) with Some (_, n) => na_eqb n (x_addr x) | None => false end
                      && (t_type t =? gt_type g) && (t_ext t =? gt_ext g) && (t_length t =? zlen (gt_value g))
                      && match gt_value g, t_single t with
                         | [], _ => true
                         | v, Some off => beqb (firstn (length v) (skipn (Z.to_nat off) pkt)) v
                         | _, None => false
                         end
                    | _ => false
                    end) tr.
Definition received_ok (c : gcfg) (f : frag) : bool :=
  match receive c f with
  | Ok (r, tr, _) =>
    (r =? OKAY) && forallb (fun q => match zget (gc_addrs c) q with
                                     | Some a => starts tr a && forallb (has_tlv (packet_of c f) tr a) (ga_tlvs a)
                                     | None => false
                                     end) (fr_members f)
  | _ => false
  end.
Lemma beqb_refl x : beqb x x = true.
Proof. induction x as [|b x IH]; cbn [beqb]; [reflexivity|]. now rewrite Z.eqb_refl. Qed.
Lemma na_eqb_refl x : na_eqb x x = true.
Proof. unfold na_eqb. now rewrite beqb_refl, !Z.eqb_refl. Qed.
Lemma received_test c f : says c f -> 1 <= gc_al c <= 16 -> zlen (fr_bytes f) < 65000 -> received_ok c f = true.
Proof.
  intros S AL L. destruct (says_received c f S AL L) as (tr & m' & R & H). unfold received_ok. rewrite R. apply andb_true_intro. split; [reflexivity|].
  apply forallb_forall. intros q Q. destruct (H q Q) as (a & -> & S1 & S2). apply andb_true_intro. split.
  - destruct (S1 eq_refl) as (x & (_ & r & FB) & I). unfold starts. apply existsb_exists. eexists. split; [exact I|]. cbn [c_id listener]. rewrite FB. apply na_eqb_refl.
  - apply forallb_forall. intros g G. destruct (S2 eq_refl g G) as (x & t & (_ & r & FB) & (T1 & T2 & T3 & T4) & I). unfold has_tlv. apply existsb_exists. eexists. split; [exact I|].
    cbn [c_id listener]. rewrite FB, na_eqb_refl, T1, T2, T3, !Z.eqb_refl. cbn [andb]. destruct (gt_value g) as [|b v] eqn:V; [reflexivity|].
    destruct T4 as (off & -> & (u & w & EP & ->)); [discriminate|]. rewrite EP. unfold zlen at 1. rewrite Nat2Z.id, skipn_app, skipn_all, Nat.sub_diag. cbn [skipn app].
    change (b :: v ++ w) with ((b :: v) ++ w). rewrite firstn_app, firstn_all, Nat.sub_diag. cbn [firstn]. rewrite app_nil_r. apply beqb_refl.
Qed.
