(** Proofs about DLEP: delivery of signals, and the stream in chunks. *)
From Verif Require Import Base BufLemmas SplitLemmas DlepModel DlepSpec DlepProofs DlepProofs2.

(** ** Delivery *)
Section Delivery.
Context (xs : list ext) (REG : registry xs) (cb : oracle) (QUI : quiet cb).

Definition same_parse (s s' : sess) : Prop := q_tlvs s' = q_tlvs s /\ q_values s' = q_values s /\ q_exts s' = q_exts s /\ q_max s' = q_max s.
Lemma act_quiet ptr : forall l s, ~ In UpdateExt l -> exists s', act xs s ptr l = Some (0, s') /\ same_parse s s' /\ q_calls s' = q_calls s.
Proof.
  induction l as [|a l IH]; intros s N; [exists s; cbn; split; auto; split; [repeat split|auto]|]. assert (~ In UpdateExt l) as N' by (intros I; apply N; now right).
  destruct a as [r|r|]; cbn [act].
  - destruct (IH (set_restrict s r) N') as (s' & A & B & C). exists s'. auto.
  - destruct (IH (set_next s r) N') as (s' & A & B & C). exists s'. auto.
  - destruct N. now left.
Qed.
Definition wants (s : sess) (ty : Z) (x : ext) : bool :=
  existsb (Z.eqb (x_id x)) (q_exts s) && match find (fun g => s_id g =? ty) (x_sigs x) with Some g => s_proc g | None => false end.
Definition the_call (s : sess) (ptr : bytes) (ty : Z) (x : ext) : call := mkCall (x_id x) ty (q_tlvs s) (q_values s) ptr.
Lemma handle_quiet s0 L ty : distinct (q_tlvs s0) -> (forall t, In t (q_tlvs s0) -> tlv_at L t) -> Forall (fits (q_tlvs s0)) L -> satisfies xs s0 ty L ->
  forall l s, (forall x, In x l -> In x xs) -> same_parse s0 s ->
  exists s', handle_all xs cb s (wire L) l ty = Some (0, s') /\ same_parse s0 s' /\ q_calls s' = q_calls s ++ map (the_call s0 (wire L) ty) (filter (wants s0 ty) l).
Proof.
  intros D T F Sa. induction l as [|x l IH]; intros s Sub P.
  - exists s. cbn. rewrite app_nil_r. auto.
  - cbn [handle_all filter]. unfold handle_extension. pose proof P as P0. destruct P0 as (P1 & P2 & P3 & P4). rewrite P3. unfold wants at 1.
    destruct (existsb (Z.eqb (x_id x)) (q_exts s0)) eqn:Ac.
    2: { cbn [andb]. change (P_OKAY =? 0) with true. cbn match. apply IH; auto. intros; apply Sub; now right. }
    cbn [andb]. apply existsb_exists in Ac. destruct Ac as (e & Ac & Q). apply Z.eqb_eq in Q. subst e.
    assert (Act : active xs s0 x) by (split; auto; apply Sub; now left).
    replace (check_mandatory s x ty) with P_OKAY.
    2: { symmetry. unfold check_mandatory. destruct (find _ (x_sigs x)) as [g|] eqn:G; auto. pose proof (find_some _ _ G) as (G1 & G2). apply Z.eqb_eq in G2. rewrite P1. apply mandatory_inv; auto.
         intros id I. pose proof (proj1 (Sa x g Act G1) G2 id I) as O. destruct (occ_at _ _ O) as (j & v & J). unfold zget in J. destruct (j <? 0); [discriminate|]. apply nth_error_In in J.
         rewrite Forall_forall in F. destruct (F _ J) as (t & It & Et & _). cbn in Et. exists t. split; auto. split; auto. apply (tlv_first L t (T t It)). now rewrite Et. }
    replace (check_duplicate s x ty) with P_OKAY.
    2: { symmetry. unfold check_duplicate. destruct (dup_signal (x_sigs x) ty None) as [g|] eqn:G; auto. apply dup_In in G. destruct G as [G|G]; [|discriminate]. rewrite P1. apply duplicates_inv.
         intros t I It. destruct (in_dec Z.eq_dec (t_id t) (s_dup g)) as [|N]; auto. left. apply (tlv_single L t (T t It)). apply (proj2 (Sa x g Act G)); auto. }
    change (P_OKAY =? 0) with true. cbn match. unfold call_processing.
    destruct (find (fun g => s_id g =? ty) (x_sigs x)) as [g|] eqn:G.
    2: { change (P_OKAY =? 0) with true. cbn match. apply IH; auto. intros; apply Sub; now right. }
    destruct (s_proc g).
    2: { change (P_OKAY =? 0) with true. cbn match. apply IH; auto. intros; apply Sub; now right. }
    rewrite P1, P2. set (c := mkCall _ _ _ _ _). pose proof (QUI (q_calls (add_call s c))) as (Q1 & Q2). destruct (cb (q_calls (add_call s c))) as [la r]. cbn [fst snd] in Q1, Q2. subst r.
    destruct (act_quiet (wire L) la (add_call s c) Q1) as (s1 & A & B & C). rewrite A. cbn [Z.eqb andb]. change (P_OKAY =? 0) with true. cbn match.
    destruct (IH s1 ltac:(intros; apply Sub; now right)) as (s2 & A2 & B2 & C2).
    { destruct B as (B1 & B2 & B3 & B4). cbn in *. repeat split; congruence. }
    exists s2. split; auto. split; auto. rewrite C2, C. cbn [map]. cbn [q_calls add_call]. rewrite <- app_assoc. reflexivity.
Qed.
Lemma wants_handles s ty x : In x xs -> (wants s ty x = true <-> In (x_id x) (q_exts s) /\ exists g, handles x ty g).
Proof.
  intros X. unfold wants. rewrite andb_true_iff, existsb_exists. split.
  - intros ((e & E & Q) & H). apply Z.eqb_eq in Q. subst e. split; auto. destruct (find _ (x_sigs x)) as [g|] eqn:G; [|discriminate]. apply find_some in G. destruct G as (G1 & G2). apply Z.eqb_eq in G2. exists g. split; auto.
  - intros (E & g & G1 & G2 & G3). split; [exists (x_id x); split; auto; apply Z.eqb_refl|]. pose proof (r_sigs _ REG x X) as N. clear - N G1 G2 G3. induction (x_sigs x) as [|h l IH]; [destruct G1|]. cbn in *. inversion N as [|? ? N1 N2]; subst.
    destruct G1 as [->|G1]; [now rewrite Z.eqb_refl|]. destruct (Z.eqb_spec (s_id h) (s_id g)) as [Q|Q]; [|auto]. destruct N1. rewrite Q. now apply in_map.
Qed.
Lemma firstn_exact {A} (a b : list A) : firstn (Z.to_nat (zlen a)) (a ++ b) = a.
Proof. unfold zlen. rewrite Nat2Z.id, firstn_app, firstn_all, Nat.sub_diag. cbn. apply app_nil_r. Qed.
Lemma nodup_x : NoDup (map x_id xs).
Proof. exact (r_nodup _ REG). Qed.

Lemma get16_0 a b r : get16 (a :: b :: r) 0 = Some (256 * a + b).
Proof. reflexivity. Qed.
Lemma get16_2 a b c d r : get16 (a :: b :: c :: d :: r) 2 = Some (256 * c + d).
Proof. reflexivity. Qed.
Lemma join16 n : Some (256 * (n / 256) + n mod 256) = Some n.
Proof. f_equal. symmetry. apply Z.div_mod. lia. Qed.
Lemma get16_signal ty L rest : is_u16 ty -> is_u16 (zlen (wire L)) ->
  get16 (wire_signal ty L ++ rest) 0 = Some ty /\ get16 (wire_signal ty L ++ rest) 2 = Some (zlen (wire L)) /\
  skipn 4 (wire_signal ty L ++ rest) = wire L ++ rest /\ zlen (wire_signal ty L ++ rest) = 4 + zlen (wire L) + zlen rest.
Proof.
  intros U1 U2. unfold wire_signal, n16. cbn [app skipn]. split; [rewrite get16_0; apply join16|].
  split; [rewrite get16_2; apply join16|]. split; auto. rewrite !zlen_cons, zlen_app. lia.
Qed.
Lemma all_bytes_wire L : Forall wf_tlv L -> all_bytes (wire L).
Proof.
  induction 1 as [|p L (W1 & W2 & W3) _ IH]; [constructor|]. rewrite wire_cons. apply Forall_app. split; auto. unfold wire_tlv. apply Forall_app. split; [apply n16_u16; auto|]. apply Forall_app. split; [apply n16_u16; auto|auto].
Qed.
Lemma wire_tlv_inj p q a b : wf_tlv p -> wf_tlv q -> wire_tlv p ++ a = wire_tlv q ++ b -> p = q /\ a = b.
Proof.
  intros (P1 & P2 & P3) (Q1 & Q2 & Q3) E. unfold wire_tlv, n16 in E. destruct p as [pt pv], q as [qt qv]. cbn [fst snd app] in *. injection E as E1 E2 E3 E4 E5.
  assert (pt = qt) as -> by (clear - E1 E2; zdm; lia). assert (zlen pv = zlen qv) as El by (clear - E3 E4; revert E3 E4; generalize (zlen pv) (zlen qv); intros; zdm; lia).
  destruct (app_inj_len _ _ _ _ E5 El) as [-> ->]. auto.
Qed.
Lemma wire_inj : forall L M, Forall wf_tlv L -> Forall wf_tlv M -> wire L = wire M -> L = M.
Proof.
  induction L as [|p L IH]; intros [|q M] A B E; auto.
  - apply (f_equal zlen) in E. rewrite wire_cons, zlen_app, zlen_wire_tlv in E. change (zlen (wire [])) with 0 in E. pose proof (zlen_nonneg (snd q)). pose proof (zlen_nonneg (wire M)). lia.
  - apply (f_equal zlen) in E. rewrite wire_cons, zlen_app, zlen_wire_tlv in E. change (zlen (wire [])) with 0 in E. pose proof (zlen_nonneg (snd p)). pose proof (zlen_nonneg (wire L)). lia.
  - rewrite !wire_cons in E. destruct (wire_tlv_inj p q _ _ (Forall_inv A) (Forall_inv B) E) as (-> & E2). f_equal. apply IH; auto; [exact (Forall_inv_tail A)|exact (Forall_inv_tail B)].
Qed.

Lemma delivered s ty udp L rest : sane xs s -> Forall wf_tlv L -> Forall (fits (q_tlvs s)) L -> is_u16 ty -> is_u16 (zlen (wire L)) -> all_bytes rest ->
  expected s (sig_type udp ty) -> satisfies xs s (sig_type udp ty) L ->
  exists s' new, process_signal xs cb s (wire_signal ty L ++ rest) (zlen (wire_signal ty L ++ rest)) udp = Some (4 + zlen (wire L), s') /\
    q_calls s' = q_calls s ++ new /\ NoDup (map k_ext new) /\
    (forall e, In e (map k_ext new) <-> exists x g, active xs s x /\ x_id x = e /\ handles x (sig_type udp ty) g) /\
    (forall c, In c new -> k_sig c = sig_type udp ty /\ k_ptr c = wire L /\ shows (k_tlvs c) (k_values c) (k_ptr c) L) /\
    q_tlvs s' <> [] /\ map key (q_tlvs s') = map key (q_tlvs s).
Proof.
  intros Sn W F U1 U2 Ar Ex Sa. destruct (get16_signal ty L rest U1 U2) as (G1 & G2 & G3 & G4).
  unfold process_signal. rewrite G1, G2, G3. set (s0 := set_next s KEEP_RESTRICTION). pose proof (zlen_nonneg (wire L)). pose proof (zlen_nonneg rest).
  rewrite G4. destruct (Z.ltb_spec (4 + zlen (wire L) + zlen rest) 4); [lia|]. fold (sig_type udp ty). destruct (Z.ltb_spec (4 + zlen (wire L) + zlen rest) (zlen (wire L) + 4)); [lia|].
  change (q_restrict s0) with (q_restrict s).
  replace (negb (q_restrict s =? ALL_SIGNALS) && negb (q_restrict s =? sig_type udp ty)) with false.
  2: { symmetry. apply andb_false_iff. rewrite !negb_false_iff, !Z.eqb_eq. exact Ex. }
  assert (Sn0 : sane xs s0) by (apply sane_next; auto). unfold process_tlvs.
  destruct (parse_tlvstream_ok s0 (wire L ++ rest) (zlen (wire L)) (n_ids _ _ Sn0) (n_max _ _ Sn0)) as (r & s1 & P1 & P2 & P3 & P4 & P5 & P6).
  { apply Forall_app. split; auto. apply all_bytes_wire; auto. }
  { rewrite zlen_app. lia. } { unfold is_u16 in U2. lia. }
  rewrite P1. assert (R : readable (q_tlvs s0) (wire L ++ rest) (zlen (wire L)) L) by (split; [apply firstn_exact|auto]).
  destruct P6 as [(-> & M & (R1 & R2 & R3) & Pi)|(_ & No)]; [|destruct (No L R)].
  rewrite firstn_exact in R1. apply (wire_inj L M W R2) in R1. subst M.
  change (P_OKAY =? 0) with true. cbn match. rewrite firstn_exact.
  assert (T1 : forall t, In t (q_tlvs s1) -> tlv_at L t) by exact (i_tlv _ _ _ _ Pi).
  assert (F1 : Forall (fits (q_tlvs s1)) L) by (rewrite Forall_forall in F |- *; intros p I; apply (fits_key (q_tlvs s) (q_tlvs s1)); auto).
  assert (Sa1 : satisfies xs s1 (sig_type udp ty) L). { intros x g (A1 & A2) G. destruct P2 as (_ & _ & P2 & _). rewrite P2 in A2. exact (Sa x g (conj A1 A2) G). }
  assert (D1 : distinct (q_tlvs s1)) by (unfold distinct; rewrite (key_ids _ _ P3); exact (n_ids _ _ Sn0)).
  destruct (handle_quiet s1 L (sig_type udp ty) D1 T1 F1 Sa1 xs s1 ltac:(auto)) as (s2 & A & B & C); [repeat split|]. rewrite A.
  change (0 =? P_TERMINATED) with false. change (0 =? P_OKAY) with true. cbn [negb].
  set (new := map _ _) in C.
  assert (Sh : shows (q_tlvs s1) (q_values s1) (wire L) L) by (intros t I; apply tlv_values; [exact (i_val _ _ _ _ Pi)|auto]).
  assert (C' : q_calls s2 = q_calls s ++ new) by (rewrite C; f_equal; apply P2).
  assert (K : map k_ext new = map x_id (filter (wants s1 (sig_type udp ty)) xs)) by (unfold new; rewrite map_map; reflexivity).
  assert (Kk : map key (q_tlvs s2) = map key (q_tlvs s)). { destruct B as (B1 & _). rewrite B1. exact P3. }
  assert (Nn : q_tlvs s2 <> []). { intros E. rewrite E in Kk. destruct (ext_tlv xs REG s Sn) as (t & It & _). destruct (q_tlvs s); [destruct It|discriminate]. }
  assert (CON : NoDup (map k_ext new) /\ (forall e, In e (map k_ext new) <-> exists x g, active xs s x /\ x_id x = e /\ handles x (sig_type udp ty) g) /\ (forall c, In c new -> k_sig c = sig_type udp ty /\ k_ptr c = wire L /\ shows (k_tlvs c) (k_values c) (k_ptr c) L)).
  { split; [rewrite K; apply NoDup_map_filter; exact nodup_x|]. split.
    - intros e. rewrite K, in_map_iff. destruct P2 as (_ & _ & P2 & _). split.
      + intros (x & E & I). apply filter_In in I. destruct I as (I & H'). apply wants_handles in H'; auto. destruct H' as (H1' & g & Hg). exists x, g. split; auto. split; auto. rewrite P2 in H1'. exact H1'.
      + intros (x & g & (A1 & A2) & E & Hg). exists x. split; auto. apply filter_In. split; auto. apply wants_handles; auto. rewrite P2. split; [exact A2|]. exists g. auto.
    - intros c I. unfold new in I. apply in_map_iff in I. destruct I as (x & <- & _). cbn. auto. }
  destruct CON as (N1 & N2 & N3).
  destruct (negb (q_next s2 =? KEEP_RESTRICTION)); [exists (set_restrict s2 (q_next s2)), new|exists s2, new]; (split; [f_equal; f_equal; lia|]); auto 7.
Qed.
End Delivery.

(** ** Rejection *)
Lemma rejected xs cb (REG : registry xs) s ty udp body rest : sane xs s -> is_u16 ty -> is_u16 (zlen body) -> all_bytes body -> all_bytes rest ->
  expected s (sig_type udp ty) -> (forall L, body = wire L -> Forall wf_tlv L -> ~ Forall (fits (q_tlvs s)) L) ->
  exists s', process_signal xs cb s (n16 ty ++ n16 (zlen body) ++ body ++ rest) (4 + zlen body + zlen rest) udp = Some (4 + zlen body, s') /\
    q_calls s' = q_calls s /\ sane xs s' /\
    (q_restrict s <> UDP_DISCOVERY -> q_restrict s <> UDP_OFFER -> q_restrict s' = TERMINATION_ACK /\ q_out s' = q_out s ++ [TERMINATION]).
Proof.
  intros Sn U1 U2 Ab Ar Ex No. unfold process_signal. pose proof (zlen_nonneg body). pose proof (zlen_nonneg rest). set (ptr := n16 ty ++ _). set (s0 := set_next s KEEP_RESTRICTION).
  destruct (Z.ltb_spec (4 + zlen body + zlen rest) 4); [lia|].
  replace (get16 ptr 0) with (Some ty) by (unfold ptr, n16; cbn [app]; rewrite get16_0; symmetry; apply join16).
  replace (get16 ptr 2) with (Some (zlen body)) by (unfold ptr, n16; cbn [app]; rewrite get16_2; symmetry; apply join16).
  replace (skipn 4 ptr) with (body ++ rest) by reflexivity. fold (sig_type udp ty).
  destruct (Z.ltb_spec (4 + zlen body + zlen rest) (zlen body + 4)); [lia|]. change (q_restrict s0) with (q_restrict s).
  replace (negb (q_restrict s =? ALL_SIGNALS) && negb (q_restrict s =? sig_type udp ty)) with false.
  2: { symmetry. apply andb_false_iff. rewrite !negb_false_iff, !Z.eqb_eq. exact Ex. }
  assert (Sn0 : sane xs s0) by (apply sane_next; auto). unfold process_tlvs.
  destruct (parse_tlvstream_ok s0 (body ++ rest) (zlen body) (n_ids _ _ Sn0) (n_max _ _ Sn0)) as (r & s1 & P1 & P2 & P3 & P4 & P5 & P6).
  { apply Forall_app; auto. } { rewrite zlen_app. lia. } { unfold is_u16 in U2. lia. }
  rewrite P1. destruct P6 as [(_ & M & (R1 & R2 & R3) & _)|(Nr & _)].
  { rewrite firstn_exact in R1. destruct (No M R1 R2 R3). }
  destruct (Z.eqb_spec r 0) as [E|_]; [destruct (Nr E)|]. destruct (Z.eqb_spec r P_TERMINATED); [contradiction|]. destruct (Z.eqb_spec r P_OKAY); [contradiction|]. cbn [negb].
  assert (Sn1 : sane xs s1) by (apply (sane_parsed xs s0); auto). destruct (sane_term xs s1 Sn1) as (T1 & T2).
  exists (send_terminate s1). split; [f_equal; f_equal; lia|]. split; [rewrite T2; apply P2|]. split; auto. destruct P2 as (Q1 & _ & _ & _ & Q5). change (q_restrict s0) with (q_restrict s) in Q1.
  intros N1 N2. unfold send_terminate. rewrite Q1. destruct (Z.eqb_spec (q_restrict s) UDP_DISCOVERY); [contradiction|]. destruct (Z.eqb_spec (q_restrict s) UDP_OFFER); [contradiction|]. cbn. rewrite Q5. auto.
Qed.

(** ** Chunks *)
Section Chunks.
Context (xs : list ext) (cb : oracle).
Lemma get16_app a x i : 0 <= i -> i + 2 <= zlen a -> get16 (a ++ x) i = get16 a i.
Proof. intros H L. unfold get16. rewrite !zget_app. destruct (Z.ltb_spec i (zlen a)); [|lia]. destruct (Z.ltb_spec (i + 1) (zlen a)); [auto|lia]. Qed.
Lemma parse_app buf x length : length <= zlen buf -> forall fuel idx count ts vs max, 0 <= idx -> (forall p q, zget buf p = Some q -> 0 <= q) ->
  parse fuel (buf ++ x) length idx count ts vs max = parse fuel buf length idx count ts vs max.
Proof.
  intros L. induction fuel as [|fuel IH]; intros idx count ts vs max I Nn; auto. cbn [parse]. destruct (idx <? length); auto. destruct (Z.ltb_spec (length - idx) 4); auto.
  rewrite !get16_app by lia. destruct (get16 buf idx) as [ty|]; auto. destruct (get16 buf (idx + 2)) as [len|] eqn:G; auto.
  assert (0 <= len). { unfold get16 in G. destruct (zget buf (idx + 2)) eqn:A; [|discriminate]. destruct (zget buf (idx + 2 + 1)) eqn:B; [|discriminate]. apply Nn in A, B. injection G as <-. lia. }
  destruct (length <? idx + 4 + len); auto. destruct (get_tlv ts ty) as [t|]; auto. destruct (_ || _); auto.
  destruct (if max =? count then _ else _) as [vs1 m1]. destruct (zset vs1 count _) as [vs2|]; auto. destruct (t_last t =? -1); [apply IH; auto; lia|].
  destruct (zget vs2 (t_last t)) as [[v|]|]; auto. destruct (zset vs2 (t_last t) _); auto. apply IH; auto. lia.
Qed.
Lemma firstn_le_app {A} (a b : list A) n : Z.of_nat n <= zlen a -> firstn n (a ++ b) = firstn n a.
Proof. intros H. rewrite firstn_app. replace (n - length a)%nat with O by (unfold zlen in H; lia). cbn. apply app_nil_r. Qed.
Lemma process_tlvs_app s ty len ptr x : all_bytes ptr -> 0 <= len <= zlen ptr -> process_tlvs xs cb s ty len (ptr ++ x) = process_tlvs xs cb s ty len ptr.
Proof.
  intros A L. unfold process_tlvs, parse_tlvstream. rewrite parse_app; [|lia|lia|].
  - destruct (parse _ _ _ _ _ _ _ _) as [[r [[ts vs] m]]|]; auto. destruct (r =? 0); auto. rewrite firstn_le_app by lia. reflexivity.
  - intros p q H. unfold zget in H. destruct (p <? 0); [discriminate|]. apply nth_error_In in H. unfold all_bytes in A. rewrite Forall_forall in A. apply A in H. unfold is_u8 in H. lia.
Qed.
Lemma process_signal_next s r ptr n udp : process_signal xs cb (set_next s r) ptr n udp = process_signal xs cb s ptr n udp.
Proof. reflexivity. Qed.
(** either the signal is not complete, or more bytes change nothing *)
Lemma process_signal_more s p x udp : all_bytes p ->
  process_signal xs cb s p (zlen p) udp = Some (0, set_next s KEEP_RESTRICTION) \/
  process_signal xs cb s (p ++ x) (zlen (p ++ x)) udp = process_signal xs cb s p (zlen p) udp /\
  4 <= zlen p /\ forall s', process_signal xs cb s p (zlen p) udp <> Some (0, s').
Proof.
  intros A. unfold process_signal. set (s0 := set_next s KEEP_RESTRICTION).
  destruct (Z.ltb_spec (zlen p) 4); [left; auto|]. destruct (signal_split p A ltac:(lia)) as (ty & len & G1 & G2 & U1 & U2 & _ & A' & L'). unfold is_u16 in U2. rewrite G1, G2.
  pose proof (zlen_nonneg x). destruct (Z.ltb_spec (zlen p) (len + 4)); [left; auto|right].
  rewrite !get16_app by lia. rewrite G1, G2. rewrite zlen_app. destruct (Z.ltb_spec (zlen p + zlen x) 4); [lia|]. destruct (Z.ltb_spec (zlen p + zlen x) (len + 4)); [lia|].
  destruct (negb _ && negb _); [split; auto; split; [lia|]; intros s'; discriminate|].
  assert (skipn 4 (p ++ x) = skipn 4 p ++ x) as ->. { rewrite skipn_app. replace (4 - length p)%nat with O by (unfold zlen in *; lia). reflexivity. }
  rewrite process_tlvs_app by (auto; lia). split; auto. split; [lia|]. intros s'.
  destruct (process_tlvs _ _ _ _ _ _) as [[r s1]|]; [|discriminate]. destruct (Z.eqb_spec r P_TERMINATED) as [->|]; [discriminate|].
  destruct (negb (r =? P_OKAY)); [intros [= E _]; lia|]. destruct (negb _); intros [= E _]; lia.
Qed.
Lemma process_signal_len s p udp r s' : all_bytes p -> process_signal xs cb s p (zlen p) udp = Some (r, s') -> r <= zlen p /\ (r = -1 \/ r = 0 \/ 4 <= r).
Proof.
  intros A. unfold process_signal. pose proof (zlen_nonneg p). destruct (Z.ltb_spec (zlen p) 4); [intros [= <- _]; lia|].
  destruct (signal_split p A ltac:(lia)) as (ty & len & G1 & G2 & U1 & U2 & _). unfold is_u16 in U2. rewrite G1, G2. destruct (Z.ltb_spec (zlen p) (len + 4)); [intros [= <- _]; lia|].
  destruct (negb _ && negb _); [intros [= <- _]; lia|]. destruct (process_tlvs _ _ _ _ _ _) as [[r1 s1]|]; [|discriminate]. destruct (Z.eqb_spec r1 P_TERMINATED) as [->|]; [intros [= <- _]; unfold P_TERMINATED; lia|].
  destruct (negb (r1 =? P_OKAY)); [intros [= <- _]; lia|]. destruct (negb _); intros [= <- _]; lia.
Qed.

(** the loop, on the bytes that are left *)
Fixpoint eat (fuel : nat) (s : sess) (p : bytes) : option (sess + sess * bytes) :=
  match fuel with
  | O => None
  | S fuel =>
    if 0 <? zlen p then
      match process_signal xs cb s p (zlen p) false with
      | None => None
      | Some (r, s') =>
        if r <? 0 then Some (inl s') else if r =? 0 then Some (inr (s', p))
        else if q_restrict s' =? KILL_SESSION then Some (inl s') else eat fuel s' (skipn (Z.to_nat r) p)
      end
    else Some (inr (s, p))
  end.
Lemma all_skipn n (p : bytes) : all_bytes p -> all_bytes (skipn n p).
Proof. unfold all_bytes. intros A. rewrite <- (firstn_skipn n p) in A. apply Forall_app in A. tauto. Qed.
Lemma skipn_Z {A} (l : list A) i j : 0 <= i -> 0 <= j -> skipn (Z.to_nat j) (skipn (Z.to_nat i) l) = skipn (Z.to_nat (i + j)) l.
Proof.
  intros. replace (Z.to_nat (i + j)) with (Z.to_nat i + Z.to_nat j)%nat by lia. generalize (Z.to_nat i) as n. intros n. revert l.
  induction n as [|n IH]; intros [|x l]; cbn; auto. now rewrite skipn_nil.
Qed.
Lemma eat_loop buf : all_bytes buf -> forall fuel s offset, 0 <= offset <= zlen buf -> q_restrict s <> KILL_SESSION ->
  match buffer_loop fuel xs cb s buf (zlen buf - offset) offset false with
  | None => None
  | Some (r, s') => if r <? 0 then Some (inl s') else if q_restrict s' =? KILL_SESSION then Some (inl s') else Some (inr (s', skipn (Z.to_nat r) buf))
  end = eat fuel s (skipn (Z.to_nat offset) buf).
Proof.
  intros A. induction fuel as [|fuel IH]; intros s offset O K; auto. cbn [buffer_loop eat].
  assert (L' : zlen (skipn (Z.to_nat offset) buf) = zlen buf - offset) by (rewrite zlen_skipn; lia). rewrite L'.
  destruct (Z.ltb_spec 0 (zlen buf - offset)).
  2: { destruct (Z.ltb_spec offset 0); [lia|]. destruct (Z.eqb_spec (q_restrict s) KILL_SESSION); [contradiction|]. reflexivity. }
  pose proof (all_skipn (Z.to_nat offset) buf A) as A'.
  destruct (process_signal xs cb s (skipn (Z.to_nat offset) buf) (zlen buf - offset) false) as [[r s1]|] eqn:P; auto.
  rewrite <- L' in P. pose proof (process_signal_len _ _ _ _ _ A' P) as (B1 & B2).
  destruct (Z.ltb_spec r 0). { destruct (Z.ltb_spec r 0); [auto|lia]. }
  destruct (Z.eqb_spec r 0).
  { destruct (Z.ltb_spec offset 0); [lia|]. destruct (process_signal_more s (skipn (Z.to_nat offset) buf) [] false A') as [E|(_ & _ & E)]; [|rewrite P in E; subst; destruct (E s1); auto].
    rewrite E in P. injection P as _ <-. cbn [q_restrict set_next]. destruct (Z.eqb_spec (q_restrict s) KILL_SESSION); [contradiction|auto]. }
  destruct (q_restrict s1 =? KILL_SESSION) eqn:Kl. { destruct (Z.ltb_spec offset 0); [lia|]. rewrite Kl. auto. }
  rewrite skipn_Z by lia. replace (zlen buf - offset - r) with (zlen buf - (offset + r)) by lia. apply IH; [lia|]. now apply Z.eqb_neq.
Qed.
Lemma process_tcp_eat s inp c : all_bytes (inp ++ c) -> q_restrict s <> KILL_SESSION -> process_tcp xs cb s inp c = eat (S (Z.to_nat (zlen (inp ++ c)))) s (inp ++ c).
Proof.
  intros A K. pose proof (zlen_nonneg (inp ++ c)). pose proof (eat_loop (inp ++ c) A (S (Z.to_nat (zlen (inp ++ c)))) s 0 ltac:(lia) K) as E. rewrite Z.sub_0_r in E. cbn [skipn Z.to_nat] in E. exact E.
Qed.

Lemma same_refl r : same_result r r.
Proof. destruct r as [[s|[s b]]|]; cbn; auto; [reflexivity|]. split; [reflexivity|auto]. Qed.
Lemma same_sym r r' : same_result r r' -> same_result r' r.
Proof. destruct r as [[s|[s b]]|], r' as [[s'|[s' b']]|]; cbn; auto; unfold same_but_next; [congruence|intuition congruence]. Qed.
Lemma same_trans r r' r'' : same_result r r' -> same_result r' r'' -> same_result r r''.
Proof. destruct r as [[s|[s b]]|], r' as [[s'|[s' b']]|], r'' as [[s''|[s'' b'']]|]; cbn; unfold same_but_next; try tauto; intuition congruence. Qed.
Lemma same_set s s' : same_but_next s s' -> s' = set_next s (q_next s').
Proof. unfold same_but_next, set_next. destruct s, s'; cbn. intros E. injection E as <- <- <- <- <- <- <-. reflexivity. Qed.

Lemma eat_next fuel s p r : same_result (eat fuel (set_next s r) p) (eat fuel s p).
Proof.
  destruct fuel; [exact Logic.I|]. cbn [eat]. destruct (0 <? zlen p); [rewrite process_signal_next; apply same_refl|]. cbn. split; [reflexivity|auto].
Qed.
Lemma eat_fuel : forall fuel fuel' s p, all_bytes p -> zlen p < Z.of_nat fuel -> zlen p < Z.of_nat fuel' -> eat fuel s p = eat fuel' s p.
Proof.
  induction fuel as [|fuel IH]; intros fuel' s p A F F'; pose proof (zlen_nonneg p); [lia|]. destruct fuel' as [|fuel']; [lia|]. cbn [eat]. destruct (Z.ltb_spec 0 (zlen p)); auto.
  destruct (process_signal xs cb s p (zlen p) false) as [[r s1]|] eqn:P; auto. pose proof (process_signal_len _ _ _ _ _ A P) as (B1 & B2).
  destruct (Z.ltb_spec r 0); auto. destruct (Z.eqb_spec r 0); auto. destruct (q_restrict s1 =? KILL_SESSION); auto.
  assert (zlen (skipn (Z.to_nat r) p) = zlen p - r) by (rewrite zlen_skipn; lia). apply IH; [apply all_skipn; auto|lia|lia].
Qed.
Lemma eat_len : forall f s p s' p', eat f s p = Some (inr (s', p')) -> all_bytes p -> all_bytes p' /\ zlen p' <= zlen p.
Proof.
  induction f as [|f IHf]; intros s q s' q' E' Aq; [discriminate|]. cbn [eat] in E'. destruct (0 <? zlen q); [|injection E' as _ <-; split; auto; lia].
  destruct (process_signal xs cb s q (zlen q) false) as [[r' s3]|] eqn:P3; [|discriminate]. pose proof (process_signal_len _ _ _ _ _ Aq P3) as (C1 & C2). destruct (Z.ltb_spec r' 0); [discriminate|]. destruct (Z.eqb_spec r' 0); [injection E' as _ <-; split; auto; lia|].
  destruct (q_restrict s3 =? KILL_SESSION); [discriminate|]. destruct (IHf _ _ _ _ E' (all_skipn _ _ Aq)) as (D1 & D2). split; auto. rewrite zlen_skipn in D2; lia.
Qed.
Lemma eat_app x : all_bytes x -> forall fuel s p f', all_bytes p -> zlen p < Z.of_nat fuel -> zlen (p ++ x) < Z.of_nat f' ->
  same_result (match eat fuel s p with Some (inr (s', p')) => eat f' s' (p' ++ x) | r => r end) (eat f' s (p ++ x)).
Proof.
  intros Ax. induction fuel as [|fuel IH]; intros s p f' A F F'; pose proof (zlen_nonneg p); pose proof (zlen_nonneg x); [lia|]. cbn [eat].
  rewrite zlen_app in F'. destruct (Z.ltb_spec 0 (zlen p)).
  2: { apply same_refl. }
  destruct (process_signal_more s p x false A) as [E|(E & L4 & N)].
  - rewrite E. cbn [Z.ltb Z.eqb Z.compare]. apply eat_next.
  - destruct f' as [|f']; [lia|]. cbn [eat]. rewrite zlen_app. destruct (Z.ltb_spec 0 (zlen p + zlen x)); [|lia]. rewrite <- zlen_app, E.
    destruct (process_signal xs cb s p (zlen p) false) as [[r s1]|] eqn:P; [|exact Logic.I]. pose proof (process_signal_len _ _ _ _ _ A P) as (B1 & B2).
    destruct (Z.ltb_spec r 0); [apply same_refl|]. destruct (Z.eqb_spec r 0) as [->|]; [destruct (N s1); auto|]. destruct (q_restrict s1 =? KILL_SESSION); [apply same_refl|].
    assert (Sk : skipn (Z.to_nat r) (p ++ x) = skipn (Z.to_nat r) p ++ x). { rewrite skipn_app. replace (Z.to_nat r - length p)%nat with O by (unfold zlen in *; lia). reflexivity. }
    rewrite Sk. assert (Lk : zlen (skipn (Z.to_nat r) p) = zlen p - r) by (rewrite zlen_skipn; lia).
    assert (Ak := all_skipn (Z.to_nat r) p A).
    pose proof (IH s1 (skipn (Z.to_nat r) p) f' Ak ltac:(lia) ltac:(rewrite zlen_app; lia)) as Q.
    destruct (eat fuel s1 (skipn (Z.to_nat r) p)) as [[s2|[s2 p2]]|] eqn:Eq; auto.
    assert (P2 : all_bytes p2 /\ zlen p2 <= zlen p - r).
    { rewrite <- Lk. exact (eat_len _ _ _ _ _ Eq Ak). }
    destruct P2 as (P2 & P3). change (same_result (eat (S f') s2 (p2 ++ x)) (eat f' s1 (skipn (Z.to_nat r) p ++ x))). rewrite (eat_fuel (S f') f' s2 (p2 ++ x)); auto.
    + apply Forall_app; auto.
    + rewrite zlen_app. lia.
    + rewrite zlen_app. lia.
Qed.
Lemma eat_kill : forall fuel s p s' p', q_restrict s <> KILL_SESSION -> all_bytes p -> eat fuel s p = Some (inr (s', p')) -> q_restrict s' <> KILL_SESSION /\ all_bytes p'.
Proof.
  induction fuel as [|fuel IH]; intros s p s' p' K A E; [discriminate|]. cbn [eat] in E. destruct (0 <? zlen p); [|injection E as <- <-; auto].
  destruct (process_signal xs cb s p (zlen p) false) as [[r s1]|] eqn:P; [|discriminate]. destruct (r <? 0); [discriminate|]. destruct (Z.eqb_spec r 0) as [->|].
  - injection E as <- <-. destruct (process_signal_more s p [] false A) as [Q|(_ & _ & Q)]; [|destruct (Q s1); auto]. rewrite Q in P. injection P as <-. auto.
  - destruct (Z.eqb_spec (q_restrict s1) KILL_SESSION); [discriminate|]. apply (IH s1 (skipn (Z.to_nat r) p)); auto. apply all_skipn; auto.
Qed.
Lemma tcp_next chunks : forall s p r, q_restrict s <> KILL_SESSION -> all_bytes p -> Forall all_bytes chunks ->
  same_result (tcp_run xs cb (set_next s r) p chunks) (tcp_run xs cb s p chunks).
Proof.
  induction chunks as [|c cs IH]; intros s p r K A F; [cbn; split; [reflexivity|auto]|]. cbn [tcp_run].
  pose proof (Forall_inv F) as Fc. pose proof (Forall_inv_tail F) as Fs. assert (Ac : all_bytes (p ++ c)) by (apply Forall_app; auto).
  rewrite !process_tcp_eat by auto. cbn [eat]. rewrite process_signal_next. destruct (0 <? zlen (p ++ c)); [|apply IH; auto]. apply same_refl.
Qed.
Lemma tcp_same chunks s s' p : same_but_next s s' -> q_restrict s <> KILL_SESSION -> all_bytes p -> Forall all_bytes chunks ->
  same_result (tcp_run xs cb s' p chunks) (tcp_run xs cb s p chunks).
Proof. intros E K A F. rewrite (same_set _ _ E). apply tcp_next; auto. Qed.
Lemma tcp_run_eat : forall chunks s inp, q_restrict s <> KILL_SESSION -> all_bytes inp -> Forall all_bytes chunks ->
  same_result (match eat (S (Z.to_nat (zlen inp))) s inp with Some (inr (s', p')) => tcp_run xs cb s' p' chunks | r => r end)
              (eat (S (Z.to_nat (zlen (inp ++ concat chunks)))) s (inp ++ concat chunks)).
Proof.
  induction chunks as [|c cs IH]; intros s inp K A F.
  - cbn [concat tcp_run]. rewrite app_nil_r. destruct (eat _ s inp) as [[?|[? ?]]|]; apply same_refl.
  - pose proof (Forall_inv F) as Fc. pose proof (Forall_inv_tail F) as Fs. cbn [concat tcp_run]. rewrite app_assoc.
    assert (Ac : all_bytes (inp ++ c)) by (apply Forall_app; auto). pose proof (zlen_nonneg inp). pose proof (zlen_nonneg c).
    eapply same_trans; [|apply (IH s (inp ++ c) K Ac Fs)].
    pose proof (eat_app c Fc (S (Z.to_nat (zlen inp))) s inp (S (Z.to_nat (zlen (inp ++ c)))) A ltac:(lia) ltac:(rewrite zlen_app; lia)) as Q.
    destruct (eat (S (Z.to_nat (zlen inp))) s inp) as [[s1|[s1 p1]]|] eqn:E1.
    + destruct (eat _ s (inp ++ c)) as [[s2|[s2 p2]]|]; try contradiction. exact Q.
    + destruct (eat_kill _ _ _ _ _ K A E1) as (K1 & A1). assert (A1c : all_bytes (p1 ++ c)) by (apply Forall_app; auto). rewrite (process_tcp_eat s1 p1 c A1c K1).
      destruct (eat_len _ _ _ _ _ E1 A) as (_ & L1). pose proof (zlen_nonneg p1).
      rewrite (eat_fuel (S (Z.to_nat (zlen (inp ++ c)))) (S (Z.to_nat (zlen (p1 ++ c)))) s1 (p1 ++ c)) in Q by (auto; rewrite !zlen_app; lia).
      destruct (eat _ s1 (p1 ++ c)) as [[s2|[s2 p2]]|] eqn:E2; destruct (eat _ s (inp ++ c)) as [[s3|[s3 p3]]|] eqn:E3; try contradiction; auto.
      destruct Q as (Q1 & <-).
      destruct (eat_kill _ _ _ _ _ K1 A1c E2) as (K2 & A2). apply same_sym. apply tcp_same; auto.
    + destruct (eat _ s (inp ++ c)) as [[s2|[s2 p2]]|]; try contradiction. exact Logic.I.
Qed.
Lemma chunks_ok chunks s : q_restrict s <> KILL_SESSION -> Forall all_bytes chunks ->
  same_result (tcp_run xs cb s [] chunks) (process_tcp xs cb s [] (concat chunks)).
Proof.
  intros K F. assert (Ac : all_bytes (concat chunks)). { clear K. induction F; [constructor|]. cbn. apply Forall_app; auto. }
  rewrite process_tcp_eat by auto. exact (tcp_run_eat chunks s [] K (Forall_nil _) F).
Qed.
End Chunks.
