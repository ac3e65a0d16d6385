(** What an accepted HELLO does: proofs. *)
From Verif Require Import Base BufLemmas NhdpModel NhdpSpec NhdpProofs NhdpHello NhdpCounts.

(** links without the fields of HELLO processing *)
Definition lstrip (l : link) : link := l_set_pc 0 (l_set_dual None l).
Definition LS s := map lstrip (s_l s).
Lemma lstrip_same l l' : lstrip l = lstrip l' <-> same_link l l'.
Proof.
  unfold lstrip, same_link. destruct l, l'; cbn. split.
  - intros H. injection H as ? ? ? ? ? ? ? ? ?. auto 15.
  - intros (? & ? & ? & ? & ? & ? & ? & ? & ?). subst. reflexivity.
Qed.
Lemma in_LS s l : In l (s_l s) -> In (lstrip l) (LS s).
Proof. apply in_map. Qed.

(** nothing happens to other objects *)
Record frame (L N : Z) (s s' : db) : Prop := {
  f_l : forall x, l_id x <> L -> (In x (LS s') <-> In x (LS s));
  f_n : forall i k, i <> N -> (In (i, k) (CN s') <-> In (i, k) (CN s));
  f_na : forall x, na_n x <> N -> (In x (s_na s') <-> In x (s_na s));
  f_la : forall x, la_l x <> L -> (In x (s_la s') <-> In x (s_la s));
  f_h : forall x, h2_l x <> L -> (In x (s_h s') <-> In x (s_h s));
  f_env : s_env s' = s_env s; f_now : s_now s' = s_now s; f_ifs : s_ifs s' = s_ifs s
}.
Lemma frame_refl L N s : frame L N s s.
Proof. constructor; try tauto; reflexivity. Qed.
Lemma frame_trans L N a b c : frame L N a b -> frame L N b c -> frame L N a c.
Proof.
  intros [A1 A2 A3 A4 A5 A6 A7 A8] [B1 B2 B3 B4 B5 B6 B7 B8]. constructor; try congruence; intros.
  - rewrite B1, A1 by auto. tauto.
  - rewrite B2, A2 by auto. tauto.
  - rewrite B3, A3 by auto. tauto.
  - rewrite B4, A4 by auto. tauto.
  - rewrite B5, A5 by auto. tauto.
Qed.
(** states that differ in nothing the specification looks at *)
Record quiet (s s' : db) : Prop := {
  q_l : LS s' = LS s; q_n : CN s' = CN s; q_na : s_na s' = s_na s; q_la : s_la s' = s_la s; q_h : s_h s' = s_h s;
  q_env : s_env s' = s_env s; q_now : s_now s' = s_now s; q_ifs : s_ifs s' = s_ifs s
}.
Lemma quiet_refl s : quiet s s.
Proof. constructor; reflexivity. Qed.
Lemma quiet_trans a b c : quiet a b -> quiet b c -> quiet a c.
Proof. intros [] []. constructor; congruence. Qed.
Lemma quiet_frame L N s s' : quiet s s' -> frame L N s s'.
Proof. intros [Q1 Q2 Q3 Q4 Q5 Q6 Q7 Q8]. constructor; auto; intros; rewrite ?Q1, ?Q2, ?Q3, ?Q4, ?Q5; tauto. Qed.
Lemma quiet_upd_n s i f : (forall n, n_id (f n) = n_id n /\ n_sym (f n) = n_sym n) -> quiet s (upd_n s i f).
Proof. intros H. destruct (qc_upd_n s i f H). constructor; auto. Qed.
Lemma quiet_upd_l s i f : (forall l, lstrip (f l) = lstrip l) -> quiet s (upd_l s i f).
Proof. intros H. constructor; auto. unfold LS, upd_l. cbn [set_l s_l]. now apply map_upd. Qed.
Lemma quiet_cur s c : quiet s (set_cur s c).
Proof. constructor; reflexivity. Qed.
Lemma quiet_n_disconnect s i s' : n_disconnect s i = Ok s' -> quiet s s'.
Proof.
  unfold n_disconnect. intros H. inv H. destruct (n_dual a); [inv H|]; okinj H; [|apply quiet_refl].
  eapply quiet_trans; apply quiet_upd_n; intros; split; reflexivity.
Qed.
Lemma quiet_l_disconnect s i s' : l_disconnect s i = Ok s' -> quiet s s'.
Proof.
  unfold l_disconnect. intros H. inv H. destruct (l_dual a); [inv H|]; okinj H; [|apply quiet_refl].
  eapply quiet_trans; apply quiet_upd_l; intros; reflexivity.
Qed.
Lemma quiet_n_connect s a b s' : n_connect s a b = Ok s' -> quiet s s'.
Proof.
  unfold n_connect. intros H. inv H. inv H. assert (Q1 : quiet s a1).
  { destruct (dual_is _ _) in E0; [okinj E0; apply quiet_refl|]. inv E0. okinj E0. eapply quiet_trans; [eapply quiet_n_disconnect; eauto|]. apply quiet_upd_n; intros; split; reflexivity. }
  inv H. eapply quiet_trans; [exact Q1|]. destruct (dual_is _ _) in H; [okinj H; apply quiet_refl|]. inv H. okinj H.
  eapply quiet_trans; [eapply quiet_n_disconnect; eauto|]. apply quiet_upd_n; intros; split; reflexivity.
Qed.
Lemma quiet_l_connect s a b s' : l_connect s a b = Ok s' -> quiet s s'.
Proof.
  unfold l_connect. intros H. inv H. inv H. assert (Q1 : quiet s a1).
  { destruct (dual_is _ _) in E0; [okinj E0; apply quiet_refl|]. inv E0. okinj E0. eapply quiet_trans; [eapply quiet_l_disconnect; eauto|]. apply quiet_upd_l; intros; reflexivity. }
  inv H. eapply quiet_trans; [exact Q1|]. destruct (dual_is _ _) in H; [okinj H; apply quiet_refl|]. inv H. okinj H.
  eapply quiet_trans; [eapply quiet_l_disconnect; eauto|]. apply quiet_upd_l; intros; reflexivity.
Qed.
(** originators in a state: those before, none, or the given one *)
Definition origs (a : addr) (s s' : db) : Prop := forall x, In x (map n_orig (s_n s')) -> In x (map n_orig (s_n s)) \/ x = UNSPEC \/ x = a.
Lemma origs_refl a s : origs a s s.
Proof. intros x H. auto. Qed.
Lemma origs_trans a x y z : origs a x y -> origs a y z -> origs a x z.
Proof. intros A B v H. apply B in H. destruct H as [H | H]; auto. Qed.
Lemma origs_upd a s i b : b = UNSPEC \/ b = a -> origs a s (upd_n s i (n_set_orig b)).
Proof.
  intros H x I. unfold upd_n, upd in I. cbn [set_n s_n] in I. rewrite map_map in I. apply in_map_iff in I. destruct I as (n & E & I).
  destruct (is_n i n); subst x; cbn; [intuition auto|left; now apply in_map].
Qed.
Lemma origs_same a s s' : map n_orig (s_n s') = map n_orig (s_n s) -> origs a s s'.
Proof. intros E x. rewrite E. auto. Qed.
Lemma quiet_set_originator s i a s' : set_originator s i a = Ok s' -> quiet s s' /\ origs a s s'.
Proof.
  unfold set_originator. intros H. inv H. destruct (addr_eqb (n_orig a0) a); [okinj H; split; [apply quiet_refl|apply origs_refl]|]. inv H. inv H. inv H. okinj H.
  assert (X : quiet s a2 /\ origs a s a2).
  { destruct (neigh_by_orig _ a) in E1; [inv E1|]; okinj E1; [|split; [apply quiet_refl|apply origs_refl]]. split; [apply quiet_upd_n; intros; split; reflexivity|apply origs_upd; auto]. }
  destruct X as [X1 X2]. split.
  - eapply quiet_trans; [exact X1|]. apply quiet_upd_n; intros; split; reflexivity.
  - eapply origs_trans; [exact X2|]. apply origs_upd; auto.
Qed.
Lemma quiet_handle s a s' : handle_originator s a = Ok s' -> quiet s s' /\ origs UNSPEC s s'.
Proof.
  unfold handle_originator. destruct (neigh_by_orig s a) as [n|]; [|intros H; okinj H; split; [apply quiet_refl|apply origs_refl]].
  destruct (dual_is _ _); [intros H; okinj H; split; [apply quiet_refl|apply origs_refl]|].
  assert (X : (if n_pc n >? 0 then Ok s else set_originator s (n_id n) UNSPEC) = Ok s' -> quiet s s' /\ origs UNSPEC s s').
  { destruct (n_pc n >? 0); [intros H; okinj H; split; [apply quiet_refl|apply origs_refl]|]. apply quiet_set_originator. }
  destruct (c_n (s_cur s)); auto. destruct (c_nconf (s_cur s)); auto. intros H. okinj H. split; [apply quiet_cur|now apply origs_same].
Qed.
Lemma map_orig_upd s i f : (forall n, n_orig (f n) = n_orig n) -> map n_orig (s_n (upd_n s i f)) = map n_orig (s_n s).
Proof. intros H. unfold upd_n. cbn [set_n s_n]. now apply map_upd. Qed.
Lemma n_disconnect_orig s i s' : n_disconnect s i = Ok s' -> map n_orig (s_n s') = map n_orig (s_n s).
Proof. unfold n_disconnect. intros H. inv H. destruct (n_dual a); [inv H|]; okinj H; auto. rewrite !map_orig_upd by reflexivity. auto. Qed.
Lemma l_disconnect_orig s i s' : l_disconnect s i = Ok s' -> s_n s' = s_n s.
Proof. unfold l_disconnect. intros H. inv H. destruct (l_dual a); [inv H|]; okinj H; auto. Qed.
Lemma quiet_dualstack h s L N s' : dualstack h s L N = Ok s' -> quiet s s' /\ map n_orig (s_n s') = map n_orig (s_n s).
Proof.
  unfold dualstack. destruct (h_hasorig h); [|intros H; okinj H; split; [apply quiet_refl|auto]]. destruct (negb _).
  - intros H. inv H. assert (Q1 : quiet s a /\ map n_orig (s_n a) = map n_orig (s_n s)).
    { destruct (neigh_by_orig s (h_v4 h)); [|okinj E; split; [apply quiet_refl|auto]]. split; [eapply quiet_n_connect; eauto|].
      unfold n_connect in E. inv E. inv E. inv E. assert (map n_orig (s_n a1) = map n_orig (s_n s)).
      { destruct (dual_is _ _) in E1; [okinj E1; auto|]. inv E1. okinj E1. rewrite map_orig_upd by reflexivity. eapply n_disconnect_orig; eauto. }
      destruct (dual_is _ _) in E; [okinj E; auto|]. inv E. okinj E. rewrite map_orig_upd by reflexivity. apply n_disconnect_orig in E3. congruence. }
    destruct Q1 as [Q1 O1]. destruct (link_by_orig _ _ _); [|okinj H; auto]. split; [eapply quiet_trans; [exact Q1|]; eapply quiet_l_connect; eauto|].
    unfold l_connect in H. inv H. inv H. inv H. assert (s_n a1 = s_n a).
    { destruct (dual_is _ _) in E1; [okinj E1; auto|]. inv E1. okinj E1. apply l_disconnect_orig in E3. auto. }
    destruct (dual_is _ _) in H; [okinj H; congruence|]. inv H. okinj H. apply l_disconnect_orig in E3. cbn. congruence.
  - destruct (_ =? _); [|intros H; okinj H; split; [apply quiet_refl|auto]]. intros H. inv H. split.
    + eapply quiet_trans; [eapply quiet_n_disconnect; eauto|eapply quiet_l_disconnect; eauto].
    + apply n_disconnect_orig in E. apply l_disconnect_orig in H. congruence.
Qed.

(** ** First pass *)
Lemma land3 v : Z.land v 3 = v mod 4.
Proof. exact (Z.land_ones v 2 ltac:(lia)). Qed.
Definition says (s : db) (f : Z) (P : list haddr) (p : Z -> Prop) : Prop :=
  exists x v, In x P /\ e_own (s_env s) f (ha_addr x) = true /\ ha_status x = Some v /\ p (v mod 4).
Lemma quiet_pass1_addr h s x : quiet s (pass1_addr h s x) /\ map n_orig (s_n (pass1_addr h s x)) = map n_orig (s_n s) /\
  let own := negb (ha_lst x =? 255) && e_own (s_env s) (c_if (s_cur s)) (ha_addr x) in
  c_if (s_cur (pass1_addr h s x)) = c_if (s_cur s) /\
  c_heard (s_cur (pass1_addr h s x)) = c_heard (s_cur s) || (own && negb (ha_lst x =? LOST)) /\
  c_lost (s_cur (pass1_addr h s x)) = c_lost (s_cur s) || (own && (ha_lst x =? LOST)).
Proof.
  unfold pass1_addr. match goal with |- context [pass1_naddr s ?c x] => set (c1 := c) end.
  assert (A : quiet s (fst (pass1_naddr s c1 x)) /\ map n_orig (s_n (fst (pass1_naddr s c1 x))) = map n_orig (s_n s) /\
              c_if (snd (pass1_naddr s c1 x)) = c_if c1 /\ c_heard (snd (pass1_naddr s c1 x)) = c_heard c1 /\ c_lost (snd (pass1_naddr s c1 x)) = c_lost c1).
  { clearbody c1. unfold pass1_naddr. destruct (_ || _); [|auto using quiet_refl]. destruct (naddr_get _ _) as [na|]; [|auto using quiet_refl]. cbn [fst snd].
    split; [apply quiet_upd_n; intros; split; reflexivity|]. split; [apply map_orig_upd; reflexivity|].
    destruct (c_nconf c1); auto. destruct (c_n c1); auto. destruct (_ =? _); auto. }
  destruct (pass1_naddr s c1 x) as [s1 c2]. cbn [fst snd] in A. destruct A as (A1 & A2 & A3 & A4 & A5).
  assert (B : quiet s1 (fst (pass1_laddr s1 c2 x)) /\ map n_orig (s_n (fst (pass1_laddr s1 c2 x))) = map n_orig (s_n s1) /\
              c_if (snd (pass1_laddr s1 c2 x)) = c_if c2 /\ c_heard (snd (pass1_laddr s1 c2 x)) = c_heard c2 /\ c_lost (snd (pass1_laddr s1 c2 x)) = c_lost c2).
  { unfold pass1_laddr. destruct (_ =? _); [|auto using quiet_refl]. destruct (laddr_get _ _ _) as [la|]; [|cbn; auto using quiet_refl]. cbn [fst snd].
    split; [apply quiet_upd_l; intros; reflexivity|]. split; [reflexivity|]. destruct (c_lconf c2); auto. destruct (c_l c2); auto. destruct (_ =? _); auto. }
  destruct (pass1_laddr s1 c2 x) as [s2 c3]. cbn [fst snd] in B. destruct B as (B1 & B2 & B3 & B4 & B5).
  split; [eapply quiet_trans; [exact A1|]; eapply quiet_trans; [exact B1|apply quiet_cur]|]. split; [cbn; congruence|].
  cbn [set_cur s_cur c_if c_heard c_lost]. assert (CI : c_if c3 = c_if (s_cur s)) by (rewrite B3, A3; reflexivity).
  assert (EE : s_env s2 = s_env s) by (rewrite (q_env _ _ B1), (q_env _ _ A1); reflexivity).
  rewrite EE, CI, B4, B5, A4, A5. auto.
Qed.
Lemma pass1_quiet h l : forall s, Forall (fun x => ha_ok1 x = true /\ ha_ok2 x = true) l -> let s' := fst (pass1 h s l) in
  quiet s s' /\ map n_orig (s_n s') = map n_orig (s_n s) /\
  (c_heard (s_cur s') = true <-> c_heard (s_cur s) = true \/ says s (c_if (s_cur s)) l (fun v => v <> 0)) /\
  (c_lost (s_cur s') = true <-> c_lost (s_cur s) = true \/ says s (c_if (s_cur s)) l (fun v => v = 0)).
Proof.
  induction l as [|x l IH]; intros s F; cbn [pass1].
  - cbn. split; [apply quiet_refl|]. split; [auto|]. split; (split; [auto|intros [H | (x & v & [] & _)]; auto]).
  - inversion F as [|? ? (F1 & _) F2]; subst. rewrite F1. cbv zeta. destruct (quiet_pass1_addr h s x) as (Q & O & CI & CH & CLo). specialize (IH (pass1_addr h s x) F2).
    cbv zeta in IH. destruct IH as (IQ & IO & IH1 & IH2). split; [eapply quiet_trans; eauto|]. split; [congruence|].
    assert (SS : forall p, says (pass1_addr h s x) (c_if (s_cur s)) l p <-> says s (c_if (s_cur s)) l p) by (intros p; unfold says; rewrite (q_env _ _ Q); tauto).
    rewrite CI in IH1, IH2. rewrite SS in IH1, IH2. rewrite IH1, IH2, CH, CLo, !orb_true_iff, !andb_true_iff.
    assert (E255 : forall v, ha_status x = Some v -> negb (ha_lst x =? 255) = true /\ ha_lst x = v mod 4).
    { intros v E. unfold ha_lst. rewrite E, land3. split; auto. pose proof (Z.mod_pos_bound v 4). apply negb_true_iff, Z.eqb_neq. lia. }
    assert (N255 : negb (ha_lst x =? 255) = true -> exists v, ha_status x = Some v).
    { unfold ha_lst. destruct (ha_status x) as [v|]; [eauto|discriminate]. }
    split; split.
    + intros [[H | ((H1 & H3) & H4)] | (y & v & Y1 & Y2)]; auto; right.
      * destruct (N255 H1) as (v & V). destruct (E255 v V) as (_ & E). rewrite E in H4. apply negb_true_iff, Z.eqb_neq in H4. exists x, v. cbn. auto.
      * exists y, v. cbn. tauto.
    + intros [H | (y & v & [<- | Y1] & Y2 & Y3 & Y4)]; auto.
      * left. right. destruct (E255 v Y3) as (E1 & E2). split; [auto|]. rewrite E2. now apply negb_true_iff, Z.eqb_neq.
      * right. exists y, v. auto.
    + intros [[H | ((H1 & H3) & H4)] | (y & v & Y1 & Y2)]; auto; right.
      * destruct (N255 H1) as (v & V). destruct (E255 v V) as (_ & E). rewrite E in H4. apply Z.eqb_eq in H4. exists x, v. cbn. auto.
      * exists y, v. cbn. tauto.
    + intros [H | (y & v & [<- | Y1] & Y2 & Y3 & Y4)]; auto.
      * left. right. destruct (E255 v Y3) as (E1 & E2). split; [auto|]. rewrite E2. now apply Z.eqb_eq.
      * right. exists y, v. auto.
Qed.
Lemma start_quiet s h : quiet s (start s h) /\ map n_orig (s_n (start s h)) = map n_orig (s_n s).
Proof.
  split; [|unfold start; cbn [set_l set_n s_n set_cur]; now rewrite map_map].
  constructor; try reflexivity; unfold start, LS, CN; cbn [set_l set_n s_n s_l set_cur]; [|now rewrite map_map].
  apply map_upd. reflexivity.
Qed.

(** ** End of the first pass *)
Lemma LS_upd_other s i f x : (forall l, l_id (f l) = l_id l) -> l_id x <> i -> (In x (LS (upd_l s i f)) <-> In x (LS s)).
Proof.
  intros F N. unfold LS, upd_l. cbn [set_l s_l]. split; intros H; apply in_map_iff in H; destruct H as (y & E & H).
  - apply in_upd in H. destruct H as (z & H & ->). unfold is_l in E. destruct (l_id z =? i) eqn:B.
    + apply Z.eqb_eq in B. subst x. exfalso. apply N. cbn. rewrite F. auto.
    + subst x. now apply in_map.
  - apply in_map_iff. exists y. split; auto. apply in_upd. exists y. split; auto. unfold is_l. destruct (l_id y =? i) eqn:B; auto.
    apply Z.eqb_eq in B. subst x. exfalso. apply N. auto.
Qed.
Lemma frame_upd_l L N s f : (forall l, l_id (f l) = l_id l) -> frame L N s (upd_l s L f).
Proof. intros F. constructor; try reflexivity. intros. now apply LS_upd_other. Qed.
Lemma frame_upd_na L N s p f : (forall x, na_n (f x) = na_n x) -> (forall x, p x = true -> na_n x = N) -> frame L N s (set_na s (upd p f (s_na s))).
Proof.
  intros F P. constructor; try reflexivity. intros x Hx. cbn [set_na s_na]. rewrite in_upd. split.
  - intros (y & H & ->). destruct (p y) eqn:B; auto. exfalso. apply Hx. rewrite F. auto.
  - intros H. exists x. split; auto. destruct (p x) eqn:B; auto. exfalso. auto.
Qed.
Lemma frame_upd_la L N s p f : (forall x, la_l (f x) = la_l x) -> (forall x, In x (s_la s) -> p x = true -> la_l x = L) -> frame L N s (set_la s (upd p f (s_la s))).
Proof.
  intros F P. constructor; try reflexivity. intros x Hx. cbn [set_la s_la]. rewrite in_upd. split.
  - intros (y & H & ->). destruct (p y) eqn:B; auto. exfalso. apply Hx. rewrite F. auto.
  - intros H. exists x. split; auto. destruct (p x) eqn:B; auto. exfalso. auto.
Qed.

Record ended (h : hello) (s s' : db) (L N : Z) : Prop := {
  en_frame : frame L N s s';
  en_h : s_h s' = s_h s; en_heard : c_heard (s_cur s') = c_heard (s_cur s); en_lost : c_lost (s_cur s') = c_lost (s_cur s);
  en_la : forall x, In x (s_la s') -> la_l x = L -> la_mbr x = true;
  en_na : forall x, In x (s_na s') -> na_n x = N -> exists x0, In x0 (s_na s) /\ na_n x0 = N /\ na_addr x0 = na_addr x /\
             (binlength (na_addr x) = h_addrlen h -> na_mbr x = true);
  en_na0 : forall x0, In x0 (s_na s) -> na_n x0 = N -> exists x, In x (s_na s') /\ na_n x = N /\ na_addr x = na_addr x0;
  en_orig : origs UNSPEC s s';
  en_l : exists l', get_l s' L = Ok l' /\ l_n l' = N /\ l_if l' = h_if h /\ l_ifaddr l' = h_src h /\
    (l_mac l' = h_mac h \/ l_mac l' = UNSPEC \/ exists l, In l (s_l s) /\ l_mac l' = l_mac l) /\
    ((exists l, In l (s_l s) /\ l_id l = L /\ l_status l' = l_status l /\ l_sym l' = l_sym l) \/
     (forall l, In l (s_l s) -> l_id l <> L) /\ l_status l' = LOST /\ l_sym l' = None)
}.
Lemma same_kn s0 s P i : same s0 s -> kn s P i <-> kn s0 P i.
Proof. intros S. unfold kn. now rewrite (e_NA _ _ S). Qed.
Lemma get_l_quiet s s' i l : wf s' -> quiet s s' -> get_l s i = Ok l -> exists l', get_l s' i = Ok l' /\ lstrip l' = lstrip l.
Proof.
  intros W Q G. apply get_l_inv in G. destruct G as (G & <- & _). apply in_LS in G. rewrite <- (q_l _ _ Q) in G. unfold LS in G. apply in_map_iff in G.
  destruct G as (l' & E & G). exists l'. split; auto. assert (l_id l' = l_id l) by (apply (f_equal l_id) in E; exact E).
  destruct (link_full' s' (l_id l') W) as (l2 & G2 & I2 & D2 & _); [now apply in_map|]. rewrite <- H, G2. f_equal.
  eapply in_map_inj with (g := l_id); eauto. apply W.
Qed.

Lemma pass1_end_post h s0 s s' L N : wf s0 -> p1 h s0 s (h_addrs h) -> In (h_if h) (s_ifs s0) ->
  one (kn s0 (h_addrs h)) -> one (kl s0 (h_if h) (h_addrs h)) -> (exists x, In x (h_addrs h) /\ this_if x) ->
  (forall i n f, In (i, (n, f)) (LI s0) -> kl s0 (h_if h) (h_addrs h) i -> kn s0 (h_addrs h) n) ->
  pass1_end h s = Ok (s', L, N) ->
  ended h s s' L N /\ (forall i, kl s0 (h_if h) (h_addrs h) i -> i = L) /\ (forall i, kn s0 (h_addrs h) i -> i = N).
Proof.
  intros W P IF ON OL TI NL H. pose proof (p1_alive _ _ _ _ W P) as (Al & An). destruct P as [S En Nw If Fn Fl Ft]. unfold pass1_end in H.
  assert (Ws : wf s) by (eapply same_wf; eauto). assert (CT0 : c_thisif (s_cur s) = true) by (apply Ft; exact TI).
  inv H. rename a into s1.
  assert (X : wf s1 /\ quiet s s1 /\ origs UNSPEC s s1 /\ NI s1 = NI s /\ LI s1 = LI s /\ NA s1 = NA s /\ LA s1 = LA s /\
     (s_cur s1 = s_cur s \/ c_n (s_cur s) = None /\ c_nconf (s_cur s) = false /\ exists i, In i (NI s) /\ s_cur s1 = with_n (s_cur s) (Some i))).
  { destruct (h_hasorig h && _ && _) in E; [|okinj E; auto 15 using quiet_refl, origs_refl].
    destruct (handle_originator_ok s (h_orig h) Ws An) as (x & Ex & A0 & A1 & A2 & A3 & A4 & A5 & A6 & A7 & A8). rewrite Ex in E. okinj E.
    apply quiet_handle in Ex. destruct Ex. auto 15. }
  destruct X as (W1 & Q1 & O1 & A1 & A2 & A3 & A4 & A8).
  assert (CL1 : c_l (s_cur s1) = c_l (s_cur s)) by (destruct A8 as [-> | (_ & _ & i & _ & ->)]; auto).
  assert (CI : c_if (s_cur s1) = h_if h) by (destruct A8 as [-> | (_ & _ & i & _ & ->)]; auto).
  assert (CT : c_thisif (s_cur s1) = true) by (destruct A8 as [-> | (_ & _ & i & _ & ->)]; auto).
  assert (CH : c_heard (s_cur s1) = c_heard (s_cur s) /\ c_lost (s_cur s1) = c_lost (s_cur s)) by (destruct A8 as [-> | (_ & _ & i & _ & ->)]; auto).
  inv H. destruct a as [s2 N2]. cbn [fst snd] in H.
  assert (X : wf s2 /\ In N2 (NI s2) /\ (forall L0, frame L0 N2 s1 s2) /\ s_h s2 = s_h s1 /\ s_l s2 = s_l s1 /\ s_la s2 = s_la s1 /\
     c_l (s_cur s2) = c_l (s_cur s1) /\ c_if (s_cur s2) = h_if h /\ c_thisif (s_cur s2) = true /\ c_heard (s_cur s2) = c_heard (s_cur s1) /\ c_lost (s_cur s2) = c_lost (s_cur s1) /\
     origs UNSPEC s1 s2 /\ (forall i, kn s0 (h_addrs h) i -> i = N2) /\
     (forall x, In x (s_na s2) -> na_n x = N2 -> exists x0, In x0 (s_na s1) /\ na_n x0 = N2 /\ na_addr x0 = na_addr x /\ (binlength (na_addr x) = h_addrlen h -> na_mbr x = true)) /\
     (forall x0, In x0 (s_na s1) -> na_n x0 = N2 -> exists x, In x (s_na s2) /\ na_n x = N2 /\ na_addr x = na_addr x0)).
  { unfold pass1_neigh in E0. destruct (c_n (s_cur s1)) as [i|] eqn:CN1.
    - inv E0. injection E0 as <- <-. match goal with |- wf (set_na s1 (upd ?q ?g ?z)) /\ _ => set (s2 := set_na s1 (upd q g z)) in *; set (p := q) in s2 end.
      assert (K : keep s1 s2) by (apply keep_upd_na; [auto|triv]).
      split; [apply K|]. split; [rewrite (k_NI _ _ K); apply get_n_inv in E1; tauto|].
      split; [intros; apply frame_upd_na; [reflexivity|unfold p; intros x B; apply andb_true_iff in B; destruct B as [B _]; now apply Z.eqb_eq in B]|].
      split; [reflexivity|]. split; [reflexivity|]. split; [reflexivity|]. split; [reflexivity|]. split; [exact CI|]. split; [exact CT|]. split; [reflexivity|]. split; [reflexivity|].
      split; [now apply origs_same|]. split; [|split].
      + intros j Hj. destruct A8 as [Ec | (E2 & E3 & k & Hk & Ec)].
        * rewrite Ec in CN1. rewrite CN1 in Fn. destruct Fn as (_ & _ & U). auto.
        * rewrite E2, E3 in Fn. exfalso. eapply Fn; eauto.
      + unfold s2. cbn [set_na s_na]. intros x Hx Nx. apply in_upd in Hx. destruct Hx as (y & Hy & ->). exists y. split; auto. destruct (p y) eqn:B.
        * split; [exact Nx|]. split; auto.
        * split; auto. split; auto. intros Hb. exfalso. unfold p in B. rewrite Nx, Hb, !Z.eqb_refl in B. discriminate.
      + unfold s2. cbn [set_na s_na]. intros x0 H0 N0. exists (if p x0 then na_set_mbr true x0 else x0). split; [apply in_upd; eauto|]. destruct (p x0); auto.
    - destruct (neighbor_add_ok s1 W1) as (W2 & C2 & E2 & E3 & E4 & E5 & E6 & E7 & E8).
      assert (NN : ~ In (s_next s1) (NI s1)) by (intros C; apply (w_nf s1 W1) in C; lia).
      assert (OO : origs UNSPEC s1 (fst (neighbor_add s1))).
      { intros x Hx. unfold neighbor_add in Hx. cbn [fst set_next set_n s_n] in Hx. rewrite map_snoc in Hx. apply in_app_iff in Hx. destruct Hx as [Hx | [Hx | []]]; auto. }
      assert (FF : forall L0, frame L0 (s_next s1) s1 (fst (neighbor_add s1))).
      { intros. constructor; try reflexivity. intros i k Hi. unfold CN, neighbor_add. cbn [fst set_next set_n s_n]. rewrite map_snoc, in_app_iff. cbn.
        split; [intros [Hx | [Hx | []]]; auto; injection Hx as <- <-; congruence|auto]. }
      assert (SH : s_h (fst (neighbor_add s1)) = s_h s1 /\ s_l (fst (neighbor_add s1)) = s_l s1 /\ s_la (fst (neighbor_add s1)) = s_la s1 /\ s_na (fst (neighbor_add s1)) = s_na s1) by (split; [|split; [|split]]; reflexivity).
      destruct (neighbor_add s1) as [x i]. cbn [fst snd] in *. injection E0 as <- <-. subst i. destruct C2 as [C2 C3 C4 C5].
      destruct SH as (SH1 & SH2 & SH3 & SH4).
      split; [eapply same_wf; [apply same_cur|auto]|]. split; [change (NI (set_cur ?x ?y)) with (NI x); rewrite E3; apply in_app_iff; cbn; auto|].
      split; [intros; eapply frame_trans; [apply FF|apply quiet_frame, quiet_cur]|]. cbn. rewrite C2. split; auto. split; auto. split; auto. split; auto. split; auto. split; auto. split; auto. split; auto.
      split; [exact OO|]. split; [|split].
      + intros j Hj. exfalso. destruct A8 as [Ec | (_ & _ & k & _ & Ec)]; rewrite Ec in CN1; [|discriminate].
        rewrite CN1 in Fn. destruct (c_nconf (s_cur s)); [|eapply Fn; eauto]. destruct Fn as (p & q & H1 & H2 & H3). apply H3. now apply ON.
      + rewrite SH4. intros y Hy Ny. exfalso. apply NN. rewrite <- Ny. apply (w_na2 s1 W1 (na_addr y)). unfold NA. apply in_map_iff. eauto.
      + rewrite SH4. intros y Hy Ny. exfalso. apply NN. rewrite <- Ny. apply (w_na2 s1 W1 (na_addr y)). unfold NA. apply in_map_iff. eauto. }
  destruct X as (W2 & HN2 & F2 & B1 & B2 & B3 & B4 & B5 & B6 & B7 & B8 & B9 & BK & B10 & B11).
  assert (LI2 : LI s2 = LI s) by (unfold LI; rewrite B2; exact A2).
  inv H. destruct a as [s3 L3]. cbn [fst snd] in H.
  assert (X : wf s3 /\ has s3 L3 N2 (h_if h) N2 /\ frame L3 N2 s2 s3 /\ s_h s3 = s_h s2 /\ s_na s3 = s_na s2 /\ map n_orig (s_n s3) = map n_orig (s_n s2) /\
     c_if (s_cur s3) = h_if h /\ c_thisif (s_cur s3) = true /\ c_heard (s_cur s3) = c_heard (s_cur s1) /\ c_lost (s_cur s3) = c_lost (s_cur s1) /\
     (forall i, kl s0 (h_if h) (h_addrs h) i -> i = L3) /\ (forall x, In x (s_la s3) -> la_l x = L3 -> la_mbr x = true) /\
     exists l3, get_l s3 L3 = Ok l3 /\ (In l3 (s_l s2) \/ (forall l, In l (s_l s2) -> l_id l <> L3) /\ l_status l3 = LOST /\ l_sym l3 = None /\ l_mac l3 = UNSPEC)).
  { unfold pass1_link in E1. destruct (c_l (s_cur s2)) as [i|] eqn:CL2.
    - inv E1. injection E1 as <- <-. match goal with |- wf (set_la s2 (upd ?q ?g ?z)) /\ _ => set (s3 := set_la s2 (upd q g z)) in *; set (p := q) in s3 end.
      assert (K : keep s2 s3) by (apply keep_upd_la; [auto|triv]).
      assert (Fl' := Fl). rewrite <- CL1, <- B4 in Fl'. destruct Fl' as (_ & Fl1 & Fl2).
      assert (Li : In (i, (N2, h_if h)) (LI s2)).
      { destruct Fl1 as (x & X1 & X2 & Hx). assert (kl s0 (h_if h) (h_addrs h) i) by (exists x; auto). apply (w_la2 s0 W) in Hx. destruct Hx as (ln & Hx).
        rewrite LI2, (e_LI _ _ S). rewrite <- (BK ln); auto. eapply NL; eauto. }
      split; [apply K|]. split; [split; [rewrite (k_LI _ _ K); auto|rewrite (k_NI _ _ K); auto]|].
      split; [apply frame_upd_la; [reflexivity|]; intros x _ Bx; unfold p in Bx; now apply Z.eqb_eq in Bx|].
      split; [reflexivity|]. split; [reflexivity|]. split; [reflexivity|]. split; [exact B5|]. split; [exact B6|]. split; [exact B7|]. split; [exact B8|].
      split; [intros j Hj; auto|]. split.
      + unfold s3. cbn [set_la s_la]. intros x Hx Lx. apply in_upd in Hx. destruct Hx as (y & Hy & ->). destruct (p y) eqn:By; auto.
        unfold p in By. rewrite Lx, Z.eqb_refl in By. discriminate.
      + exists a. split; auto. left. apply get_l_inv in E2. tauto.
    - inv E1. destruct a as [x id]. cbn [fst snd] in E1. injection E1 as <- <-. rewrite B5 in E2.
      destruct (link_add_ok s2 N2 (h_if h) W2 HN2) as (y & Ey & W3 & C3 & F1 & F3 & F4 & F5 & F6 & F7).
      { rewrite (f_ifs _ _ _ _ (F2 0)), (q_ifs _ _ Q1), (e_ifs _ _ S). auto. }
      rewrite Ey in E2. injection E2 as <- <-.
      assert (NL2 : ~ In (s_next s2) (LK s2)) by (intros C; apply (w_lf s2 W2) in C; clear - C; lia).
      assert (NoL : forall l, In l (s_l s2) -> l_id l <> s_next s2) by (intros l Hl C; apply NL2; rewrite <- C; now apply in_map).
      assert (W3' : wf (set_cur y (with_l (s_cur s2) (Some (s_next s2))))) by (eapply same_wf; [apply same_cur|auto]).
      unfold link_add in Ey. inv Ey. inv Ey. injection Ey as <-. cbn [set_next set_l].
      split; [exact W3'|].
      split; [split; [change (In (s_next s2, (N2, h_if h)) (LI (set_cur (set_next (set_l s2 (s_l s2 ++ [{| l_id := s_next s2; l_n := N2; l_if := h_if h; l_ifaddr := UNSPEC; l_mac := UNSPEC; l_status := LOST; l_dual := None; l_pc := 0; l_sym := None; l_heard := None; l_vt := None |}])) (s_next s2 + 1)) (with_l (s_cur s2) (Some (s_next s2)))))); unfold LI; cbn [set_cur set_next set_l s_l]; rewrite map_snoc; apply in_app_iff; cbn; auto|exact HN2]|].
      split.
      { constructor; try reflexivity. intros z Hz. unfold LS. cbn [set_cur set_next set_l s_l]. rewrite map_snoc, in_app_iff. cbn. split; [intros [Hy | [Hy | []]]; auto; subst z; cbn in Hz; congruence|auto]. }
      split; [reflexivity|]. split; [reflexivity|]. split; [reflexivity|]. split; [exact B5|]. split; [exact B6|]. split; [exact B7|]. split; [exact B8|].
      assert (CLN : c_l (s_cur s) = None) by congruence.
      split; [|split].
      + intros j Hj. exfalso. rewrite CLN in Fl. destruct (c_lconf (s_cur s)); [|eapply Fl; eauto]. destruct Fl as (p & q & H1 & H2 & H3). apply H3. now apply OL.
      + cbn. intros z Hz Lz. exfalso. destruct (w_la2 s2 W2 (la_if z) (la_addr z) (la_l z)) as (m & Hm); [unfold LA; apply in_map_iff; eauto|]. apply LI_LK in Hm. congruence.
      + eexists. split; [|right; split; [exact NoL|]].
        * unfold get_l. cbn [set_cur set_next set_l s_l]. assert (FA : find (is_l (s_next s2)) (s_l s2) = None).
          { destruct (find (is_l (s_next s2)) (s_l s2)) eqn:FE; auto. apply find_LK in FE. tauto. }
          assert (FS : forall (l1 l2 : list link) q, find q l1 = None -> find q (l1 ++ l2) = find q l2).
          { clear. induction l1 as [|b l1 IH]; intros l2 q Hq; auto. cbn in *. destruct (q b); [discriminate|auto]. }
          rewrite FS by exact FA. cbn [find]. unfold is_l at 1. cbn [l_id]. rewrite Z.eqb_refl. reflexivity.
        * auto. }
  destruct X as (W3 & H3 & F3 & D1 & D2 & D3 & D4 & D5 & D6 & D7 & D8 & D9 & l3 & G3 & D10).
  set (g := fun l => l_set_addr (h_src h) (if a_af (h_mac h) =? 0 then l_mac l else h_mac h) l) in *.
  set (s4 := upd_l s3 L3 g) in *.
  assert (K4 : keep s3 s4) by (apply keep_upd_l; [auto|triv]).
  assert (CT4 : c_thisif (s_cur s4) = true) by exact D5. rewrite CT4 in H. cbn [rbind] in H.
  assert (G4 : get_l s4 L3 = Ok (g l3)) by (apply get_l_upd_same; auto).
  rewrite G4 in H. cbn [rbind] in H. inv H. rename a into s6. injection H as <- <- <-.
  destruct (dualstack_ok h s4 L3 N2 (k_wf _ _ K4)) as (y & Ey & K6).
  { destruct H3. rewrite (keep_LK _ _ K4). eapply LI_LK; eauto. } { destruct H3. rewrite (k_NI _ _ K4). auto. }
  assert (y = s6) by congruence. subst y. clear E2. apply quiet_dualstack in Ey. destruct Ey as [Q6 O6]. destruct (x_cur _ _ (k_ctx _ _ K6)).
  split; [|split; [exact D8|exact BK]].
  assert (FR : frame L3 N2 s s6).
  { eapply frame_trans; [apply quiet_frame; exact Q1|]. eapply frame_trans; [apply F2|]. eapply frame_trans; [exact F3|].
    eapply frame_trans; [|apply quiet_frame; exact Q6]. apply frame_upd_l. reflexivity. }
  constructor; auto.
  - rewrite (q_h _ _ Q6). change (s_h s4) with (s_h s3). rewrite D1, B1, (q_h _ _ Q1). auto.
  - rewrite (x_cur _ _ (k_ctx _ _ K6)). change (s_cur s4) with (s_cur s3). rewrite D6. tauto.
  - rewrite (x_cur _ _ (k_ctx _ _ K6)). change (s_cur s4) with (s_cur s3). rewrite D7. tauto.
  - rewrite (q_la _ _ Q6). exact D9.
  - rewrite (q_na _ _ Q6). change (s_na s4) with (s_na s3). rewrite D2, <- (q_na _ _ Q1). exact B10.
  - rewrite (q_na _ _ Q6). change (s_na s4) with (s_na s3). rewrite D2, <- (q_na _ _ Q1). exact B11.
  - eapply origs_trans; [exact O1|]. eapply origs_trans; [exact B9|]. apply origs_same. rewrite O6. exact D3.
  - destruct (get_l_quiet s4 s6 L3 (g l3) (k_wf _ _ K6) Q6 G4) as (l6 & G6 & E6). apply lstrip_same in E6. destruct E6 as (Z1 & Z2 & Z3 & Z4 & Z5 & Z6 & Z7 & Z8 & Z9).
    destruct H3 as (H3 & _). pose proof (get_l_inv _ _ _ G3) as (I3 & J3 & _). pose proof (in_LI _ _ I3) as I3'. rewrite J3 in I3'. pose proof (LI_fun _ _ _ _ W3 I3' H3) as Y. injection Y as Y1 Y2.
    cbn in *. exists l6. split; [exact G6|]. split; [congruence|]. split; [congruence|]. split; [congruence|].
    assert (OLD : forall l, In l (s_l s2) -> exists l0, In l0 (s_l s) /\ same_link l l0).
    { intros l Hl. rewrite B2 in Hl. apply in_LS in Hl. rewrite (q_l _ _ Q1) in Hl. unfold LS in Hl. apply in_map_iff in Hl. destruct Hl as (l0 & E0' & Hl).
      exists l0. split; auto. apply lstrip_same. auto. }
    assert (OLD2 : forall l, In l (s_l s) -> exists l0, In l0 (s_l s2) /\ same_link l l0).
    { intros l Hl. rewrite B2. apply in_LS in Hl. rewrite <- (q_l _ _ Q1) in Hl. unfold LS in Hl. apply in_map_iff in Hl. destruct Hl as (l0 & E0' & Hl).
      exists l0. split; auto. apply lstrip_same. auto. }
    split.
    + rewrite Z5. destruct (a_af (h_mac h) =? 0); auto. destruct D10 as [D10 | (_ & _ & _ & ->)]; auto. destruct (OLD _ D10) as (l0 & I0 & S0).
      right. right. exists l0. split; auto. apply S0.
    + destruct D10 as [D10 | (N10 & D11 & D12 & D13)].
      * destruct (OLD _ D10) as (l0 & I0 & S0). left. exists l0. destruct S0 as (? & ? & ? & ? & ? & ? & ? & ? & ?). split; auto. split; [congruence|]. split; congruence.
      * right. split; [|split; congruence]. intros l Hl C. destruct (OLD2 _ Hl) as (l0 & I0 & S0 & _). apply (N10 l0 I0). congruence.
Qed.

(** ** Second pass *)
Lemma la_if_of s L n f x : wf s -> In (L, (n, f)) (LI s) -> In x (s_la s) -> la_l x = L -> la_if x = f.
Proof.
  intros W H I E. destruct (w_la2 s W (la_if x) (la_addr x) (la_l x)) as (m & Hm); [unfold LA; apply in_map_iff; eauto|].
  rewrite E in Hm. pose proof (LI_fun _ _ _ _ W Hm H). congruence.
Qed.
Lemma LS_same s s' : s_l s' = s_l s -> LS s' = LS s.
Proof. unfold LS. congruence. Qed.
(** only link addresses have changed *)
Record same_but_la (s s' : db) : Prop := {
  sl_l : LS s' = LS s; sl_n : s_n s' = s_n s; sl_na : s_na s' = s_na s; sl_h : s_h s' = s_h s; sl_ctx : ctx s s'
}.
Lemma li1_coh s L N f a s' : wf s -> In (L, (N, f)) (LI s) -> c_if (s_cur s) = f -> (forall la, laddr_get s f a = Some la -> la_l la = L) ->
  li1 s L a THIS_IF = Ok s' ->
  same_but_la s s' /\ (forall x, la_l x <> L -> (In x (s_la s') <-> In x (s_la s))) /\
  (forall x, In x (s_la s') -> la_l x = L -> la_addr x = a /\ la_mbr x = false \/ la_addr x <> a /\ In x (s_la s)) /\
  (exists x, In x (s_la s') /\ la_l x = L /\ la_addr x = a /\ la_mbr x = false) /\
  (forall x, In x (s_la s) -> la_addr x <> a -> In x (s_la s')).
Proof.
  intros W HL CI U H. unfold li1 in H. rewrite Z.eqb_refl in H. rewrite CI in H. destruct (laddr_get s f a) as [la|] eqn:G.
  - pose proof (U la eq_refl) as Ul. apply laddr_get_LA in G. destruct G as (G1 & G2 & G3 & G4). inv H. rewrite Ul, Z.eqb_refl in H. cbn [rbind] in H. okinj H.
    change (s_cur (upd_l s L _)) with (s_cur s). rewrite CI. cbn [set_la s_la]. change (s_la (upd_l s L _)) with (s_la s).
    split; [constructor; try reflexivity; [unfold LS, upd_l; cbn [set_la set_l s_l]; now apply map_upd|constructor; reflexivity]|].
    split; [|split; [|split]].
    + intros x Hx. rewrite in_upd. split.
      * intros (y & Hy & ->). destruct (is_la f a y) eqn:B; auto. exfalso. apply Hx. unfold is_la in B. apply andb_true_iff in B. destruct B as [B1 B2].
        apply Z.eqb_eq in B1. apply addr_eqb_eq in B2. cbn. assert (In ((f, a), la_l y) (LA s)) by (unfold LA; apply in_map_iff; exists y; split; congruence).
        rewrite <- Ul. eapply LA_fun; eauto.
      * intros I. exists x. split; auto. destruct (is_la f a x) eqn:B; auto. exfalso. apply Hx. unfold is_la in B. apply andb_true_iff in B. destruct B as [B1 B2].
        apply Z.eqb_eq in B1. apply addr_eqb_eq in B2. assert (In ((f, a), la_l x) (LA s)) by (unfold LA; apply in_map_iff; exists x; split; congruence).
        rewrite <- Ul. eapply LA_fun; eauto.
    + intros x Hx Lx. apply in_upd in Hx. destruct Hx as (y & Hy & ->). destruct (is_la f a y) eqn:B.
      * left. unfold is_la in B. apply andb_true_iff in B. destruct B as [B1 B2]. apply addr_eqb_eq in B2. auto.
      * right. split; auto. intros C. assert (la_if y = f) by (eapply la_if_of; eauto). unfold is_la in B. rewrite C, H, Z.eqb_refl, addr_eqb_refl in B. discriminate.
    + exists (la_set_mbr false la). split; [apply in_upd; exists la; split; auto; unfold is_la; rewrite G2, G3, Z.eqb_refl, addr_eqb_refl; reflexivity|]. auto.
    + intros x Hx Ax. apply in_upd. exists x. split; auto. unfold is_la. rewrite (proj2 (addr_eqb_neq (la_addr x) a)) by auto. rewrite andb_false_r. auto.
  - destruct (link_full s L N f W HL) as (l & Gl & _ & _ & Nl & Fl & _). unfold laddr_add in H. rewrite Gl in H. cbn [rbind] in H. inv H. inv H. okinj H. cbn [set_la s_la].
    split; [constructor; try reflexivity; constructor; reflexivity|]. split; [|split; [|split]].
    + intros x Hx. rewrite in_app_iff. cbn. split; [intros [? | [<- | []]]; auto; cbn in Hx; congruence|auto].
    + intros x Hx Lx. apply in_app_iff in Hx. destruct Hx as [Hx | [<- | []]]; [|left; auto]. right. split; auto. intros C.
      apply laddr_get_None in G. apply G. assert (la_if x = f) by (eapply la_if_of; eauto). unfold LA. rewrite map_map. apply in_map_iff. exists x. split; cbn; congruence.
    + eexists. split; [apply in_app_iff; cbn; eauto|]. auto.
    + intros x Hx _. apply in_app_iff. auto.
Qed.
(** only neighbor addresses have changed *)
Record same_but_na (s s' : db) : Prop := {
  sn_l : LS s' = LS s; sn_n : CN s' = CN s; sn_o : map n_orig (s_n s') = map n_orig (s_n s); sn_la : s_la s' = s_la s; sn_h : s_h s' = s_h s; sn_ctx : ctx s s'
}.
Lemma li2_coh s N a s' : wf s -> (forall na, naddr_get s a = Some na -> na_n na = N) -> li2 s N a = Ok s' ->
  same_but_na s s' /\ (forall x, na_n x <> N -> (In x (s_na s') <-> In x (s_na s))) /\
  (forall x, In x (s_na s') -> na_n x = N -> na_addr x = a /\ na_mbr x = false /\ na_lost x = None \/ na_addr x <> a /\ In x (s_na s)) /\
  (exists x, In x (s_na s') /\ na_n x = N /\ na_addr x = a) /\
  (forall x, In x (s_na s) -> na_addr x <> a -> In x (s_na s')).
Proof.
  intros W U H. unfold li2 in H. destruct (naddr_get s a) as [na|] eqn:G.
  - pose proof (U na eq_refl) as Un. apply naddr_get_NA in G. destruct G as (G1 & G2 & G3). inv H. rewrite Un, Z.eqb_refl in H. cbn [rbind] in H. okinj H.
    unfold naddr_not_lost. cbn [set_na s_na]. change (s_na (upd_n s N _)) with (s_na s).
    assert (O : forall y, In y (s_na s) -> is_na a y = true -> na_n y = N).
    { intros y Hy B. apply addr_eqb_eq in B. rewrite <- Un. apply (NA_fun s a); auto. unfold NA. apply in_map_iff. exists y. split; congruence. }
    assert (T : forall y, is_na a (na_set_mbr false y) = is_na a y) by reflexivity.
    split; [constructor; try reflexivity; [unfold CN, upd_n; cbn [set_na set_n s_n]; apply map_upd; reflexivity|apply map_orig_upd; reflexivity|constructor; reflexivity]|].
    split; [|split; [|split]].
    + intros x Hx. rewrite in_upd. split.
      * intros (y & Hy & ->). apply in_upd in Hy. destruct Hy as (z & Hz & ->). destruct (is_na a z) eqn:B; [|rewrite B; auto].
        exfalso. apply Hx. rewrite T, B. cbn. auto.
      * intros I. exists x. destruct (is_na a x) eqn:B; [exfalso; auto|]. split; auto. apply in_upd. exists x. rewrite B. auto.
    + intros x Hx Nx. apply in_upd in Hx. destruct Hx as (y & Hy & ->). apply in_upd in Hy. destruct Hy as (z & Hz & ->). destruct (is_na a z) eqn:B.
      * left. rewrite T, B. cbn. apply addr_eqb_eq in B. auto.
      * rewrite B. right. split; auto. now apply addr_eqb_neq.
    + exists (na_set_lost None (na_set_mbr false na)). split; auto. apply in_upd. exists (na_set_mbr false na). assert (B : is_na a na = true) by (apply addr_eqb_eq; auto).
      split; [apply in_upd; exists na; rewrite B; auto|rewrite T, B; auto].
    + intros x Hx Ax. assert (B : is_na a x = false) by (apply addr_eqb_neq; auto). apply in_upd. exists x. rewrite B. split; auto. apply in_upd. exists x. rewrite B. auto.
  - unfold naddr_add in H. inv H. okinj H. cbn [set_na s_na].
    split; [constructor; try reflexivity; constructor; reflexivity|]. split; [|split; [|split]].
    + intros x Hx. rewrite in_app_iff. cbn. split; [intros [? | [<- | []]]; auto; cbn in Hx; congruence|auto].
    + intros x Hx Nx. apply in_app_iff in Hx. destruct Hx as [Hx | [<- | []]]; [|left; auto]. right. split; auto. intros C.
      apply naddr_get_None in G. apply G. unfold NA. rewrite map_map. apply in_map_iff. exists x. split; cbn; congruence.
    + eexists. split; [apply in_app_iff; cbn; eauto|]. auto.
    + intros x Hx _. apply in_app_iff. auto.
Qed.
(** the two-hop part *)
Lemma lst_none x : (ha_lst x =? 255) = true <-> ha_status x = None.
Proof.
  unfold ha_lst. destruct (ha_status x) as [v|]; [|split; auto]. rewrite land3, Z.eqb_eq. split; [|discriminate]. intros H. pose proof (Z.mod_pos_bound v 4). lia.
Qed.
Lemma oth_none x : (ha_oth x =? 255) = true <-> ha_other x = None.
Proof.
  unfold ha_oth. destruct (ha_other x) as [v|]; [|split; auto]. rewrite land1, Z.eqb_eq. split; [|discriminate]. intros H. pose proof (Z.mod_pos_bound v 2). lia.
Qed.
Lemma lst_sym x : (ha_lst x =? SYMMETRIC) || (ha_oth x =? 1) = true <-> reports_sym x.
Proof.
  unfold ha_lst, ha_oth, reports_sym, SYMMETRIC. rewrite orb_true_iff. split.
  - intros [H | H]; [left; destruct (ha_status x) as [v|]|right; destruct (ha_other x) as [v|]]; try discriminate; apply Z.eqb_eq in H; rewrite ?land3, ?land1 in H; eauto.
  - intros [(v & -> & H) | (v & -> & H)]; [left|right]; apply Z.eqb_eq; rewrite ?land3, ?land1; auto.
Qed.
Definition third_at (s : db) (f : Z) (x : haddr) : Prop :=
  e_own (s_env s) f (ha_addr x) = false /\ e_any (s_env s) (ha_addr x) = false /\ (ha_status x <> None \/ ha_other x <> None).
Lemma two_hop h s L N x s' : pass2_2hop h s L N x = Ok s' ->
  s' = set_h s (s_h s') /\
  (forall y, h2_l y <> L \/ h2_addr y <> ha_addr x -> (In y (s_h s') <-> In y (s_h s))) /\
  (third_at s (c_if (s_cur s)) x ->
    (reports_sym x -> exists y, In y (s_h s') /\ h2_l y = L /\ h2_addr y = ha_addr x /\ h2_vt y = timer s (h_vtime h)) /\
    (~ reports_sym x -> forall y, In y (s_h s') -> h2_l y = L -> h2_addr y <> ha_addr x)).
Proof.
  intros H. unfold pass2_2hop in H. assert (SS : s = set_h s (s_h s)) by (destruct s; reflexivity).
  destruct (negb (ha_lst x =? 255) || negb (ha_oth x =? 255)) eqn:T.
  - destruct (e_own _ _ _) eqn:O; [inv H; inv H; okinj H; split; auto; split; [tauto|intros (C & _); congruence]|].
    destruct (e_any _ _) eqn:Y; [okinj H; split; auto; split; [tauto|intros (_ & C & _); congruence]|].
    destruct ((ha_lst x =? SYMMETRIC) || (ha_oth x =? 1)) eqn:R.
    + apply lst_sym in R. inv H. inv H. okinj H. rename a0 into s1. cbn [set_h s_h].
      assert (X : s1 = set_h s (s_h s1) /\ (forall y, h2_l y <> L \/ h2_addr y <> ha_addr x -> (In y (s_h s1) <-> In y (s_h s))) /\ exists y, In y (s_h s1) /\ h2_l y = L /\ h2_addr y = ha_addr x).
      { destruct (existsb (is_h L (ha_addr x)) (s_h s)) eqn:B.
        - okinj E0. split; auto. split; [tauto|]. apply existsb_exists in B. destruct B as (y & B1 & B2). apply andb_true_iff in B2. destruct B2 as [B2 B3].
          apply Z.eqb_eq in B2. apply addr_eqb_eq in B3. eauto.
        - unfold l2hop_add in E0. inv E0. inv E0. okinj E0. cbn [set_h s_h]. split; [reflexivity|]. split.
          + intros y Hy. rewrite in_app_iff. cbn. split; [intros [? | [<- | []]]; auto; cbn in Hy; destruct Hy; congruence|auto].
          + eexists. split; [apply in_app_iff; cbn; eauto|]. auto. }
      destruct X as (X1 & X2 & (y & Y1 & Y2 & Y3)). split; [rewrite X1 at 1; reflexivity|]. split.
      * intros z Hz. rewrite <- X2 by auto. rewrite in_upd. split.
        -- intros (w & Hw & ->). destruct (is_h L (ha_addr x) w) eqn:B; auto. apply andb_true_iff in B. destruct B as [B1 B2]. apply Z.eqb_eq in B1. apply addr_eqb_eq in B2.
           cbn in Hz. destruct Hz; congruence.
        -- intros I. exists z. split; auto. destruct (is_h L (ha_addr x) z) eqn:B; auto. apply andb_true_iff in B. destruct B as [B1 B2]. apply Z.eqb_eq in B1. apply addr_eqb_eq in B2.
           destruct Hz; congruence.
      * intros _. split; [|tauto]. intros _. assert (B : is_h L (ha_addr x) y = true) by (unfold is_h; rewrite Y2, Y3, Z.eqb_refl, addr_eqb_refl; auto).
        eexists. split; [apply in_upd; exists y; rewrite B; split; [exact Y1|reflexivity]|]. cbn. split; auto. split; auto. rewrite X1. reflexivity.
    + assert (R' : ~ reports_sym x) by (rewrite <- lst_sym; congruence). inv H. unfold l2hops_remove in H. inv H. okinj H. cbn [set_h s_h]. split; [reflexivity|]. split.
      * intros y Hy. rewrite in_del. split; [tauto|]. intros I. split; auto. unfold is_h. destruct Hy as [Hy | Hy].
        -- apply Z.eqb_neq in Hy. rewrite Hy. auto.
        -- apply addr_eqb_neq in Hy. rewrite Hy. apply andb_false_r.
      * intros _. split; [tauto|]. intros _ y Hy Ly Ay. apply in_del in Hy. destruct Hy as [_ Hy]. unfold is_h in Hy. rewrite Ly, Ay, Z.eqb_refl, addr_eqb_refl in Hy. discriminate.
  - okinj H. split; auto. split; [tauto|]. intros (_ & _ & C). apply orb_false_iff in T. destruct T as [T1 T2]. apply negb_false_iff in T1, T2.
    apply lst_none in T1. apply oth_none in T2. tauto.
Qed.

Definition listed (P : list haddr) (a : addr) : Prop := exists y, In y P /\ local y /\ ha_addr y = a.
Record mid (h : hello) (L N : Z) (s1 s : db) (P : list haddr) : Prop := {
  m_frame : frame L N s1 s;
  m_l : LS s = LS s1; m_n : CN s = CN s1; m_o : map n_orig (s_n s) = map n_orig (s_n s1); m_ctx : ctx s1 s;
  m_la : forall x, In x (s_la s) -> la_l x = L -> (exists y, In y P /\ this_if y /\ ha_addr y = la_addr x) /\ la_mbr x = false \/ In x (s_la s1);
  m_la2 : forall y, In y P -> this_if y -> exists x, In x (s_la s) /\ la_l x = L /\ la_addr x = ha_addr y /\ la_mbr x = false;
  m_na : forall x, In x (s_na s) -> na_n x = N -> listed P (na_addr x) /\ na_mbr x = false /\ na_lost x = None \/ ~ listed P (na_addr x) /\ In x (s_na s1);
  m_na2 : forall a, listed P a -> exists x, In x (s_na s) /\ na_n x = N /\ na_addr x = a;
  m_na3 : forall x, In x (s_na s1) -> na_n x = N -> exists x', In x' (s_na s) /\ na_n x' = N /\ na_addr x' = na_addr x;
  m_h : forall x, In x P -> third_at s1 (h_if h) x ->
    (reports_sym x -> exists y, In y (s_h s) /\ h2_l y = L /\ h2_addr y = ha_addr x /\ h2_vt y = timer s1 (h_vtime h)) /\
    (~ reports_sym x -> forall y, In y (s_h s) -> h2_l y = L -> h2_addr y <> ha_addr x)
}.
Lemma listed_snoc P x a : listed (P ++ [x]) a <-> listed P a \/ local x /\ ha_addr x = a.
Proof.
  unfold listed. split.
  - intros (y & H & L & E). apply in_app_iff in H. destruct H as [H | [<- | []]]; eauto.
  - intros [(y & H & L & E) | (L & E)]; [exists y|exists x]; rewrite in_app_iff; cbn; auto.
Qed.
Lemma mid_start h L N s : mid h L N s s [].
Proof.
  constructor; auto using frame_refl, ctx_refl; try (intros; contradiction).
  - intros x H E. right. split; auto. intros (y & [] & _).
  - intros a (y & [] & _).
  - eauto.
Qed.
Lemma LS_LI s s' : LS s' = LS s -> LI s' = LI s.
Proof.
  intros E. assert (X : forall z, LI z = map (fun l => (l_id l, (l_n l, l_if l))) (LS z)) by (intros z; unfold LI, LS; rewrite map_map; reflexivity).
  now rewrite !X, E.
Qed.

Lemma mid_step h L N s1 s P x s' rest : mid h L N s1 s P -> p2 h s L N N (x :: rest) ->
  NoDup (map ha_addr (P ++ [x])) ->
  (forall i, this_if x -> In ((h_if h, ha_addr x), i) (LA s1) -> i = L) ->
  (forall i, local x -> In (ha_addr x, i) (NA s1) -> i = N) ->
  pass2_addr h L N s x = Ok s' -> mid h L N s1 s' (P ++ [x]).
Proof.
  intros M R ND KL KN H. pose proof R as [W (HL & HN) R1 R2 R3 R4 R5]. destruct M as [M1 M2 M3 M4 M5 M6 M7 M8 M9 M10 M11].
  assert (NP : ~ In (ha_addr x) (map ha_addr P)).
  { rewrite map_snoc in ND. clear -ND. induction (map ha_addr P) as [|a l IH]; cbn in *; auto. inversion ND as [|? ? N1 N2]; subst.
    intros [-> | C]; [apply N1; rewrite in_app_iff; cbn; auto|now apply IH]. }
  assert (NP1 : ~ listed P (ha_addr x)) by (intros (y & Hy & _ & E); apply NP; rewrite <- E; now apply in_map).
  unfold pass2_addr in H. inv H. rename a into s2.
  assert (X : exists s2', (if (ha_lif x =? THIS_IF) || (ha_lif x =? OTHER_IF) then pass2_localif s L N (ha_addr x) (ha_lif x) else Ok s) = Ok s2') by eauto.
  assert (Y : frame L N s1 s2 /\ LS s2 = LS s1 /\ CN s2 = CN s1 /\ map n_orig (s_n s2) = map n_orig (s_n s1) /\ ctx s1 s2 /\ s_h s2 = s_h s /\
    (forall z, In z (s_la s2) -> la_l z = L -> (exists y, In y (P ++ [x]) /\ this_if y /\ ha_addr y = la_addr z) /\ la_mbr z = false \/ In z (s_la s1)) /\
    (forall y, In y (P ++ [x]) -> this_if y -> exists z, In z (s_la s2) /\ la_l z = L /\ la_addr z = ha_addr y /\ la_mbr z = false) /\
    (forall z, In z (s_na s2) -> na_n z = N -> listed (P ++ [x]) (na_addr z) /\ na_mbr z = false /\ na_lost z = None \/ ~ listed (P ++ [x]) (na_addr z) /\ In z (s_na s1)) /\
    (forall a, listed (P ++ [x]) a -> exists z, In z (s_na s2) /\ na_n z = N /\ na_addr z = a) /\
    (forall z, In z (s_na s1) -> na_n z = N -> exists x', In x' (s_na s2) /\ na_n x' = N /\ na_addr x' = na_addr z)).
  { clear X. destruct ((ha_lif x =? THIS_IF) || (ha_lif x =? OTHER_IF)) eqn:LOC.
    - apply lif_local in LOC. rewrite localif_split in E. inv E. rename a into s3.
      assert (Y : same_but_la s s3 /\ (forall z, la_l z <> L -> (In z (s_la s3) <-> In z (s_la s))) /\
        (forall z, In z (s_la s3) -> la_l z = L -> (exists y, In y (P ++ [x]) /\ this_if y /\ ha_addr y = la_addr z) /\ la_mbr z = false \/ In z (s_la s1)) /\
        (forall y, In y (P ++ [x]) -> this_if y -> exists z, In z (s_la s3) /\ la_l z = L /\ la_addr z = ha_addr y /\ la_mbr z = false)).
      { destruct (ha_lif x =? THIS_IF) eqn:T.
        - pose proof T as T'. apply lif_this in T. apply Z.eqb_eq in T'. rewrite T' in E0.
          destruct (li1_coh s L N (h_if h) (ha_addr x) s3 W HL R1) as (A1 & A2 & A3 & A4 & A5); auto.
          { intros la G. apply laddr_get_LA in G. destruct G as (G1 & G2 & G3 & G4). destruct (Z.eq_dec (la_l la) L) as [|NE]; auto. apply KL; auto.
            apply (f_la _ _ _ _ M1) in G1; auto. unfold LA. apply in_map_iff. exists la. split; congruence. }
          split; auto. split; auto. split.
          + intros z Hz Lz. destruct (A3 z Hz Lz) as [(B1 & B2) | (B1 & B2)].
            * left. split; auto. exists x. rewrite in_app_iff. cbn. auto.
            * destruct (M6 z B2 Lz) as [((y & Y1 & Y2 & Y3) & B3) | B3]; auto. left. split; auto. exists y. rewrite in_app_iff. auto.
          + intros y Hy Ty. apply in_app_iff in Hy. destruct Hy as [Hy | [<- | []]]; auto. destruct (M7 y Hy Ty) as (z & Z1 & Z2 & Z3 & Z4). exists z. split; auto.
            apply A5; auto. intros C. apply NP. rewrite <- C, Z3. now apply in_map.
        - unfold li1 in E0. rewrite T in E0. okinj E0. split; [constructor; try reflexivity; apply ctx_refl|]. split; [tauto|]. split.
          + intros z Hz Lz. destruct (M6 z Hz Lz) as [((y & Y1 & Y2 & Y3) & B3) | B3]; auto. left. split; auto. exists y. rewrite in_app_iff. auto.
          + intros y Hy Ty. apply in_app_iff in Hy. destruct Hy as [Hy | [<- | []]]; auto. apply lif_this in Ty. congruence. }
      destruct Y as ([A1 A2 A3 A4 A5] & A6 & A7 & A8).
      assert (W3 : wf s3).
      { assert (Q : calm s N N (eq (ha_addr x))) by (left; auto).
        rewrite <- R1 in HL. destruct (pass2_localif_ok s L N N (ha_addr x) (ha_lif x) W (conj HL HN) Q) as (s4 & E4 & _).
        clear E4. revert E0. unfold li1. intros E0. destruct (ha_lif x =? THIS_IF) eqn:T; [|okinj E0; auto].
        destruct (laddr_get s (c_if (s_cur s)) (ha_addr x)) as [la|] eqn:G.
        - assert (LL : la_l la = L).
          { apply laddr_get_LA in G. destruct G as (G1 & G2 & G3 & G4). destruct (Z.eq_dec (la_l la) L) as [|NE]; auto. apply KL; [now apply lif_this|].
            apply (f_la _ _ _ _ M1) in G1; auto. unfold LA. apply in_map_iff. exists la. split; congruence. }
          inv E0. rewrite LL, Z.eqb_refl in E0. cbn [rbind] in E0. okinj E0.
          pose proof (keep_upd_l s L (l_set_pc (l_pc a - 1)) W ltac:(triv)) as K9.
          exact (k_wf _ _ (keep_upd_la (upd_l s L (l_set_pc (l_pc a - 1))) (is_la (c_if (s_cur s)) (ha_addr x)) (la_set_mbr false) (k_wf _ _ K9) ltac:(triv))).
        - destruct (laddr_add_ok s L N (c_if (s_cur s)) (ha_addr x) W HL G) as (s5 & E5 & W5 & _). rewrite E5 in E0. okinj E0. auto. }
      destruct (li2_coh s3 N (ha_addr x) s2 W3) as ([B1 B2 B3 B4 B5 B6] & B7 & B8 & B9 & B10); auto.
      { intros na G. apply naddr_get_NA in G. destruct G as (G1 & G2 & G3). destruct (Z.eq_dec (na_n na) N) as [|NE]; auto. apply KN; auto.
        rewrite A3 in G1. apply (f_na _ _ _ _ M1) in G1; auto. unfold NA. apply in_map_iff. exists na. split; congruence. }
      assert (C : ctx s1 s2) by (eapply ctx_trans; [exact M5|]; eapply ctx_trans; [exact A5|exact B6]).
      split; [|split; [congruence|split; [unfold CN in *; rewrite B2; rewrite A2; exact M3|split; [rewrite B3, A2; exact M4|split; [exact C|split; [congruence|]]]]]].
      + eapply frame_trans; [exact M1|]. destruct A5 as [? ? ? ?], B6 as [? ? ? ?]. constructor; try congruence; intros.
        * rewrite B1, A1. tauto.
        * rewrite B2. unfold CN. rewrite A2. tauto.
        * rewrite B7, A3 by auto. tauto.
        * rewrite B4. auto.
        * rewrite B5, A4. tauto.
      + rewrite B4. split; [exact A7|]. split; [exact A8|]. rewrite A3 in B8, B10. split; [|split].
        * intros z Hz Nz. destruct (B8 z Hz Nz) as [(D1 & D2 & D3) | (D1 & D2)].
          -- left. rewrite listed_snoc. auto.
          -- destruct (M8 z D2 Nz) as [(F1 & F2) | (F1 & F2)]; [left; rewrite listed_snoc; tauto|right; rewrite listed_snoc; split; auto; intros [? | (_ & ?)]; auto].
        * intros a Ha. apply listed_snoc in Ha. destruct Ha as [Ha | (_ & <-)]; auto. destruct (M9 a Ha) as (z & Z1 & Z2 & Z3). exists z. split; auto.
          apply B10; auto. intros C1. apply NP1. rewrite <- C1, Z3. auto.
        * intros z Hz Nz. destruct (M10 z Hz Nz) as (z' & Z1 & Z2 & Z3). destruct (addr_eq_dec (na_addr z') (ha_addr x)) as [E1 | E1].
          -- destruct B9 as (w & W1 & W2 & W4). exists w. split; auto. split; auto. congruence.
          -- exists z'. auto.
    - okinj E. assert (NL : ~ local x) by (rewrite <- lif_local; congruence). split; [auto|]. split; auto. split; auto. split; auto. split; auto. split; auto.
      split; [|split; [|split; [|split]]].
      + intros z Hz Lz. destruct (M6 z Hz Lz) as [((y & Y1 & Y2 & Y3) & B3) | B3]; auto. left. split; auto. exists y. rewrite in_app_iff. auto.
      + intros y Hy Ty. apply in_app_iff in Hy. destruct Hy as [Hy | [<- | []]]; auto. exfalso. apply NL. now apply this_local.
      + intros z Hz Nz. rewrite listed_snoc. destruct (M8 z Hz Nz) as [? | (F1 & F2)]; [tauto|]. right. split; auto. intros [? | (? & _)]; auto.
      + intros a Ha. apply listed_snoc in Ha. destruct Ha as [Ha | (? & _)]; [auto|contradiction].
      + auto. }
  destruct Y as (Y1 & Y2 & Y3 & Y4 & Y5 & Y6 & Y7 & Y8 & Y9 & Y10 & Y11). clear E X.
  apply two_hop in H. destruct H as (T1 & T2 & T3). assert (C2 : ctx s2 s') by (rewrite T1; constructor; reflexivity).
  destruct Y5 as [Z1 Z2 Z3 Z4]. assert (CI : c_if (s_cur s2) = h_if h) by (rewrite Z1, <- (x_cur _ _ M5); exact R1).
  rewrite CI in T3. unfold third_at in T3. rewrite Z2 in T3. assert (TT : timer s2 (h_vtime h) = timer s1 (h_vtime h)) by (unfold timer; now rewrite Z4). rewrite TT in T3.
  constructor.
  - eapply frame_trans; [exact Y1|]. rewrite T1. constructor; try reflexivity. intros y Hy. apply T2. auto.
  - rewrite T1. exact Y2.
  - rewrite T1. exact Y3.
  - rewrite T1. exact Y4.
  - destruct C2. constructor; congruence.
  - rewrite T1. exact Y7.
  - rewrite T1. exact Y8.
  - rewrite T1. exact Y9.
  - rewrite T1. exact Y10.
  - rewrite T1. exact Y11.
  - intros y Hy Ty. apply in_app_iff in Hy. destruct Hy as [Hy | [<- | []]]; [|exact (T3 Ty)].
    assert (NE : ha_addr y <> ha_addr x) by (intros C; apply NP; rewrite <- C; now apply in_map).
    destruct (M11 y Hy Ty) as (U1 & U2). split.
    + intros S. destruct (U1 S) as (z & V1 & V2 & V3 & V4). exists z. split; auto. apply T2; [right; congruence|]. rewrite Y6. auto.
    + intros S z Hz Lz C. apply T2 in Hz; [|right; congruence]. rewrite Y6 in Hz. eapply U2; eauto.
Qed.
Lemma mid_all h L N s1 l : forall s P s' d, mid h L N s1 s P -> p2 h s L N N l -> NoDup (map ha_addr (P ++ l)) ->
  Forall (fun x => ha_ok2 x = true) l ->
  (forall x i, In x l -> this_if x -> In ((h_if h, ha_addr x), i) (LA s1) -> i = L) ->
  (forall x i, In x l -> local x -> In (ha_addr x, i) (NA s1) -> i = N) ->
  pass2 h L N s l = Ok (s', d) -> mid h L N s1 s' (P ++ l) /\ d = false /\ p2 h s' L N N [].
Proof.
  induction l as [|x l IH]; intros s P s' d M R ND OK KL KN H; cbn [pass2] in H.
  - injection H as <- <-. rewrite app_nil_r. auto.
  - inversion OK as [|? ? O1 O2]; subst. rewrite O1 in H. inv H. destruct (pass2_addr_ok h L N N s x l R) as (y & Ey & R'). assert (y = a) by congruence. subst y.
    assert (E2 : P ++ x :: l = (P ++ [x]) ++ l) by (rewrite <- app_assoc; reflexivity). rewrite E2 in *.
    eapply IH; eauto.
    + eapply mid_step; eauto.
      * rewrite map_app in ND. clear -ND. revert ND. generalize (map ha_addr l) as r. generalize (map ha_addr (P ++ [x])) as q. induction q as [|a q IH]; cbn; intros r H; [constructor|].
        inversion H as [|? ? H1 H2]; subst. constructor; [rewrite in_app_iff in H1; tauto|eauto].
      * intros i. apply KL. cbn; auto.
      * intros i. apply KN. cbn; auto.
    + intros y i Hy. apply KL. cbn; auto.
    + intros y i Hy. apply KN. cbn; auto.
Qed.

(** ** End of the second pass *)
Lemma in_frame_n s N f : (forall n, n_id (f n) = n_id n) -> forall i k, i <> N -> (In (i, k) (CN (upd_n s N f)) <-> In (i, k) (CN s)).
Proof.
  intros F i k NE. unfold CN, upd_n. cbn [set_n s_n]. split; intros H; apply in_map_iff in H; destruct H as (n & E & H); injection E as E1 E2.
  - apply in_upd in H. destruct H as (m & H & ->). unfold is_n in *. destruct (n_id m =? N) eqn:B.
    + apply Z.eqb_eq in B. rewrite F in E1. congruence.
    + apply in_map_iff. exists m. split; congruence.
  - apply in_map_iff. exists n. split; [congruence|]. apply in_upd. exists n. split; auto. unfold is_n. destruct (n_id n =? N) eqn:B; auto. apply Z.eqb_eq in B. congruence.
Qed.
Definition nk (x : naddr) := (na_addr x, na_n x, na_mbr x).
Record changed (L N : Z) (s s' : db) : Prop := {
  cg_frame : frame L N s s'; cg_l : s_l s' = s_l s; cg_la : s_la s' = s_la s; cg_cur : s_cur s' = s_cur s; cg_o : map n_orig (s_n s') = map n_orig (s_n s);
  cg_na : map nk (s_na s') = map nk (s_na s)
}.
Lemma now_sym_effect s L N l s' : get_l s L = Ok l -> l_n l = N -> now_symmetric s L = Ok s' ->
  changed L N s s' /\ s_h s' = s_h s /\ (forall x, In x (s_na s') -> In x (s_na s) \/ exists x0, In x0 (s_na s) /\ x = na_set_lost None x0).
Proof.
  intros G E H. unfold now_symmetric in H. rewrite G in H. cbn [rbind] in H. rewrite E in H. inv H. destruct (n_sym a + 1 =? 1); okinj H.
  - split; [constructor; try reflexivity|split; [reflexivity|]].
    + constructor; try reflexivity.
      * apply in_frame_n. reflexivity.
      * intros x Hx. cbn [bump_setid naddr_not_lost set_na s_na]. rewrite in_upd. split.
        -- intros (y & Hy & ->). destruct (na_n y =? N) eqn:B; auto. apply Z.eqb_eq in B. cbn in Hx. congruence.
        -- intros I. exists x. split; auto. destruct (na_n x =? N) eqn:B; auto. apply Z.eqb_eq in B. congruence.
    + exact (map_orig_upd s N (n_set_sym (n_sym a + 1)) (fun _ => eq_refl)).
    + cbn [bump_setid naddr_not_lost set_na s_na]. apply map_upd. reflexivity.
    + intros x Hx. cbn [bump_setid naddr_not_lost set_na s_na] in Hx. apply in_upd in Hx. destruct Hx as (y & Hy & ->). destruct (na_n y =? N); eauto.
  - split; [constructor; try reflexivity|split; [reflexivity|auto]].
    + constructor; try reflexivity. apply in_frame_n. reflexivity.
    + exact (map_orig_upd s N (n_set_sym (n_sym a + 1)) (fun _ => eq_refl)).
Qed.
Lemma not_sym_effect s L N l s' : get_l s L = Ok l -> l_n l = N -> not_symmetric s L = Ok s' -> changed L N s s'.
Proof.
  intros G E H. unfold not_symmetric in H. rewrite G in H. cbn [rbind] in H. inv H. unfold l2hops_remove in E0. inv E0. okinj E0.
  set (s1 := set_h s (del (fun x => h2_l x =? L) (s_h s))) in *. rewrite E in H.
  assert (F1 : frame L N s s1).
  { constructor; try reflexivity. intros x Hx. unfold s1. cbn [set_h s_h]. rewrite in_del. split; [tauto|]. intros I. split; auto. now apply Z.eqb_neq. }
  inv H. destruct (n_sym a - 1 =? 0).
  - inv H. okinj H. constructor; try reflexivity.
    + eapply frame_trans; [exact F1|]. constructor; try reflexivity.
      * apply in_frame_n. reflexivity.
      * intros x Hx. cbn [bump_setid naddr_set_lost set_na s_na]. rewrite in_upd. split.
        -- intros (y & Hy & ->). destruct (na_n y =? N) eqn:B; auto. apply Z.eqb_eq in B. cbn in Hx. congruence.
        -- intros I. exists x. split; auto. destruct (na_n x =? N) eqn:B; auto. apply Z.eqb_eq in B. congruence.
    + exact (map_orig_upd s1 N (n_set_sym (n_sym a - 1)) (fun _ => eq_refl)).
    + cbn [bump_setid naddr_set_lost set_na s_na]. apply map_upd. reflexivity.
  - okinj H. constructor; try reflexivity.
    + eapply frame_trans; [exact F1|]. constructor; try reflexivity. apply in_frame_n. reflexivity.
    + exact (map_orig_upd s1 N (n_set_sym (n_sym a - 1)) (fun _ => eq_refl)).
Qed.
Record updated (L N : Z) (l : link) (st : Z) (s s' : db) : Prop := {
  ud_frame : frame L N s s'; ud_l : s_l s' = upd (is_l L) (l_set_status st) (s_l s);
  ud_la : s_la s' = s_la s; ud_cur : s_cur s' = s_cur s; ud_o : map n_orig (s_n s') = map n_orig (s_n s);
  ud_na : map nk (s_na s') = map nk (s_na s);
  ud_same : (l_status l = SYMMETRIC <-> st = SYMMETRIC) -> s_na s' = s_na s;
  ud_up : st = SYMMETRIC \/ l_status l <> SYMMETRIC -> s_h s' = s_h s /\ (forall x, In x (s_na s') -> In x (s_na s) \/ exists x0, In x0 (s_na s) /\ x = na_set_lost None x0)
}.
Lemma update_effect s L N l s' : get_l s L = Ok l -> l_n l = N -> update_status s L = Ok s' ->
  exists st, calc_status s l = Ok st /\ updated L N l st s s'.
Proof.
  intros G E H. unfold update_status in H. rewrite G in H. cbn [rbind] in H. inv H. rename a into st. exists st. split; [reflexivity|].
  set (s1 := upd_l s L (l_set_status st)) in *.
  assert (G1 : get_l s1 L = Ok (l_set_status st l)) by (apply get_l_upd_same; auto). assert (N1 : l_n (l_set_status st l) = N) by exact E.
  assert (F1 : frame L N s s1) by (apply frame_upd_l; reflexivity).
  destruct (l_status l =? SYMMETRIC) eqn:W; destruct (st =? SYMMETRIC) eqn:I; cbn [andb negb rbind] in H;
    rewrite ?Z.eqb_eq, ?Z.eqb_neq in *.
  - okinj H. constructor; auto.
  - inv H. okinj H. destruct (not_sym_effect s1 L N _ _ G1 N1 E1) as [C1 C2 C3 C4 C5 C6]. constructor; auto.
    + eapply frame_trans; eauto.
    + intros [X Y]. tauto.
    + tauto.
  - inv H. okinj H. destruct (now_sym_effect s1 L N _ _ G1 N1 E1) as ([C1 C2 C3 C4 C5 C6] & C7 & C8). constructor; auto.
    + eapply frame_trans; eauto.
    + intros [X Y]. tauto.
  - okinj H. constructor; auto.
Qed.
Definition by_timers (l : link) : Z := if active (l_sym l) then SYMMETRIC else if active (l_heard l) then HEARD else LOST.
Definition free (s : db) (l : link) : Prop :=
  e_own (s_env s) (l_if l) (l_ifaddr l) = false /\
  (let o := e_orig (s_env s) (a_af (l_ifaddr l)) in a_af o = 0 \/ o <> l_ifaddr l /\ ~ In o (map n_orig (s_n s))) /\
  (a_af (l_mac l) = 0 \/ e_mac (s_env s) (l_if l) <> l_mac l) /\ e_pend (s_env s) (l_id l) = false /\ e_hlost (s_env s) (l_id l) = false.
Lemma calc_timers s l st : free s l -> calc_status s l = Ok st -> st = by_timers l.
Proof.
  intros (F1 & F2 & F3 & F4 & F5) H. unfold calc_status in H. inv H. inv H. rewrite F1, F4, F5 in H.
  assert (B1 : negb (a_af (e_orig (s_env s) (a_af (l_ifaddr l))) =? 0) && (addr_eqb (e_orig (s_env s) (a_af (l_ifaddr l))) (l_ifaddr l) || addr_eqb (e_orig (s_env s) (a_af (l_ifaddr l))) (n_orig a0)) = false).
  { destruct F2 as [-> | (F2 & F6)]; auto. apply andb_false_iff. right. apply orb_false_iff. split; apply addr_eqb_neq; auto. intros C. apply F6. rewrite C. apply in_map. apply get_n_inv in E0. tauto. }
  assert (B2 : negb (a_af (l_mac l) =? 0) && addr_eqb (e_mac (s_env s) (l_if l)) (l_mac l) = false).
  { destruct F3 as [-> | F3]; auto. apply andb_false_iff. right. now apply addr_eqb_neq. }
  rewrite B1, B2 in H. unfold by_timers. destruct (active (l_sym l)); [okinj H; auto|]. destruct (active (l_heard l)); okinj H; auto.
Qed.
Definition same_peer (l l' : link) : Prop :=
  l_id l' = l_id l /\ l_n l' = l_n l /\ l_if l' = l_if l /\ l_ifaddr l' = l_ifaddr l /\ l_mac l' = l_mac l.
Lemma get_l_set s s' L st l : s_l s' = upd (is_l L) (l_set_status st) (s_l s) -> get_l s L = Ok l -> get_l s' L = Ok (l_set_status st l).
Proof. intros E G. assert (X : get_l s' L = get_l (upd_l s L (l_set_status st)) L) by (unfold get_l, upd_l; cbn [set_l s_l]; now rewrite E). rewrite X. now apply get_l_upd_same. Qed.

Lemma symtime_effect h s L N l s' : get_l s L = Ok l -> l_n l = N -> pass2_symtime h s L = Ok s' ->
  frame L N s s' /\ s_la s' = s_la s /\ s_cur s' = s_cur s /\ map n_orig (s_n s') = map n_orig (s_n s) /\ map nk (s_na s') = map nk (s_na s) /\
  exists l', get_l s' L = Ok l' /\ same_peer l l' /\
   (c_heard (s_cur s) = true -> l_sym l' = timer s (h_vtime h) /\
      exists st, calc_status (upd_l s L (l_set_sym (timer s (h_vtime h)))) (l_set_sym (timer s (h_vtime h)) l) = Ok st /\ l_status l' = st /\
        updated L N l st (upd_l s L (l_set_sym (timer s (h_vtime h)))) s') /\
   (c_heard (s_cur s) = false -> l_status l' = l_status l /\ s_na s' = s_na s /\ s_h s' = s_h s /\ l_sym l' = if c_lost (s_cur s) then None else l_sym l).
Proof.
  intros G E H. unfold pass2_symtime in H. destruct (c_heard (s_cur s)) eqn:CH.
  - set (s1 := upd_l s L (l_set_sym (timer s (h_vtime h)))) in *.
    assert (G1 : get_l s1 L = Ok (l_set_sym (timer s (h_vtime h)) l)) by (apply get_l_upd_same; auto).
    assert (F1 : frame L N s s1) by (apply frame_upd_l; reflexivity).
    destruct (update_effect s1 L N _ _ G1 E H) as (st & C & U). pose proof U as [U1 U2 U3 U4 U5 U6 U7 U8].
    split; [eapply frame_trans; eauto|]. split; [exact U3|]. split; [exact U4|]. split; [exact U5|]. split; [exact U6|].
    exists (l_set_status st (l_set_sym (timer s (h_vtime h)) l)). split; [eapply get_l_set; eauto|]. split; [unfold same_peer; auto 10|].
    split; [|discriminate]. intros _. split; [reflexivity|]. exists st. split; [exact C|]. split; [reflexivity|].
    constructor; auto.
  - destruct (c_lost (s_cur s)) eqn:CLo.
    + rewrite G in H. cbn [rbind] in H. destruct (active (l_sym l)) eqn:A.
      * set (s1 := upd_l s L (l_set_sym None)) in *. assert (G1 : get_l s1 L = Ok (l_set_sym None l)) by (apply get_l_upd_same; auto).
        assert (F1 : frame L N s s1) by (apply frame_upd_l; reflexivity).
        rewrite G1 in H. cbn [rbind] in H. inv H. okinj H. destruct (a =? HEARD).
        -- split; [eapply frame_trans; [exact F1|apply frame_upd_l; reflexivity]|]. do 4 (split; [reflexivity|]).
           eexists. split; [apply get_l_upd_same; [reflexivity|exact G1]|]. split; [unfold same_peer; auto 10|]. split; [discriminate|]. auto.
        -- split; [exact F1|]. do 4 (split; [reflexivity|]).
           eexists. split; [exact G1|]. split; [unfold same_peer; auto 10|]. split; [discriminate|]. auto.
      * okinj H. split; [apply frame_refl|]. do 4 (split; [reflexivity|]). exists l. split; auto. split; [unfold same_peer; auto 10|]. split; [discriminate|]. split; auto. split; auto. split; auto.
        destruct (l_sym l); [discriminate|auto].
    + okinj H. split; [apply frame_refl|]. do 4 (split; [reflexivity|]). exists l. split; auto. split; [unfold same_peer; auto 10|]. split; [discriminate|]. auto.
Qed.
Definition heard_time (h : hello) (s : db) (l : link) : Z :=
  match l_sym l with
  | Some d => if u64 (d - s_now s) <? h_vtime h then h_vtime h else u64 (d - s_now s)
  | None => h_vtime h
  end.
Lemma times_effect h s L N l s' : get_l s L = Ok l -> pass2_times h s L = Ok s' ->
  frame L N s s' /\ s_la s' = s_la s /\ s_cur s' = s_cur s /\ s_n s' = s_n s /\ s_na s' = s_na s /\ s_h s' = s_h s /\
  exists l', get_l s' L = Ok l' /\ same_peer l l' /\ l_status l' = l_status l /\ l_sym l' = l_sym l /\ l_heard l' = timer s (heard_time h s l).
Proof.
  intros G H. unfold pass2_times in H. rewrite G in H. cbn [rbind] in H. fold (heard_time h s l) in H. set (t := heard_time h s l) in *.
  set (s1 := upd_l s L (l_set_heard (timer s t))) in *. assert (G1 : get_l s1 L = Ok (l_set_heard (timer s t) l)) by (apply get_l_upd_same; auto).
  assert (F1 : frame L N s s1) by (apply frame_upd_l; reflexivity).
  match type of H with (if ?b then _ else _) = _ => destruct b end; okinj H.
  - split; [eapply frame_trans; [exact F1|apply frame_upd_l; reflexivity]|]. do 5 (split; [reflexivity|]).
    eexists. split; [apply get_l_upd_same; [reflexivity|exact G1]|]. split; [unfold same_peer; auto 10|]. auto.
  - split; [exact F1|]. do 5 (split; [reflexivity|]). eexists. split; [exact G1|]. split; [unfold same_peer; auto 10|]. auto.
Qed.
Definition free0 (h : hello) (s : db) (l : link) : Prop :=
  free s l /\ (let o := e_orig (s_env s) (a_af (l_ifaddr l)) in a_af o = 0 \/ o <> h_orig h).
Lemma same_peer_refl l : same_peer l l.
Proof. unfold same_peer. auto. Qed.
Lemma same_peer_trans a b c : same_peer a b -> same_peer b c -> same_peer a c.
Proof. unfold same_peer. intros (? & ? & ? & ? & ?) (? & ? & ? & ? & ?). repeat split; congruence. Qed.
Lemma free0_peer h s s' l l' : same_peer l l' -> s_env s' = s_env s -> origs (h_orig h) s s' -> free0 h s l -> free0 h s' l'.
Proof.
  intros (P1 & P2 & P3 & P4 & P5) E O ((F1 & F2 & F3 & F4 & F5) & F6). unfold free0, free. rewrite E, P1, P3, P4, P5. split; auto. split; auto. split; auto.
  destruct F2 as [F2 | (F2 & F7)]; auto. destruct (Z.eq_dec (a_af (e_orig (s_env s) (a_af (l_ifaddr l)))) 0) as [|NE]; auto. right. split; auto.
  intros C. apply O in C. destruct C as [C | [C | C]]; auto.
  - apply NE. rewrite C. reflexivity.
  - destruct F6; congruence.
Qed.
Definition gone (N : Z) (x : naddr) : bool := (na_n x =? N) && na_mbr x.
Definition gone2 (L N : Z) (s : db) (y : l2hop) : bool := (h2_l y =? L) && existsb (fun x => gone N x && addr_eqb (na_addr x) (h2_addr y)) (s_na s).
Record finished (h : hello) (L N : Z) (s : db) (l : link) (s' : db) (l' : link) : Prop := {
  fi_sym : l_sym l' = if c_heard (s_cur s) then timer s (h_vtime h) else if c_lost (s_cur s) then None else l_sym l;
  fi_heard : l_heard l' = timer s (heard_time h s l');
  fi_status : l_status l' = by_timers l';
  fi_up : l_status l' = SYMMETRIC \/ l_status l <> SYMMETRIC -> s_h s' = del (gone2 L N s) (s_h s) /\
    forall x, In x (s_na s') -> exists x0, In x0 (s_na s) /\ nk x = nk x0 /\
      (na_lost x = None \/ na_lost x = if gone N x0 then timer s (e_nhold (s_env s) (h_if h)) else na_lost x0);
  fi_eq : (l_status l = SYMMETRIC <-> l_status l' = SYMMETRIC) -> s_na s' = upd (gone N) (na_set_lost (timer s (e_nhold (s_env s) (h_if h)))) (s_na s)
}.
Lemma get_l_LS s s' i l : LS s' = LS s -> get_l s i = Ok l -> exists l', get_l s' i = Ok l' /\ lstrip l' = lstrip l.
Proof.
  unfold get_l, LS. generalize (s_l s') as q. induction (s_l s) as [|x r IH]; intros q E G; [discriminate|]. destruct q as [|y q]; [discriminate|].
  cbn [map] in E. assert (lstrip y = lstrip x /\ map lstrip q = map lstrip r) as [H E2] by (split; congruence). clear E. cbn [find] in *.
  unfold is_l at 1. unfold is_l at 1 in G. replace (l_id y) with (l_id x) by (apply (f_equal l_id) in H; cbn in H; congruence). destruct (l_id x =? i).
  - injection G as <-. eauto.
  - apply IH; auto.
Qed.
Lemma pass2_end_post h L N s l s' : p2 h s L N N [] -> get_l s L = Ok l -> l_n l = N -> pass2_end h s L N = Ok s' ->
  frame L N s s' /\ s_la s' = del (fun x => (la_l x =? L) && la_mbr x) (s_la s) /\ map nk (s_na s') = map nk (s_na s) /\
  exists l', get_l s' L = Ok l' /\ same_peer l l' /\ (free0 h s l -> h_vtime h <> 0 -> finished h L N s l s' l').
Proof.
  intros R G En H. pose proof R as [W (HL & HN) R1 R2 R3 R4 R5]. unfold pass2_end in H. inv H. rename a into sa.
  (* leftovers *)
  unfold pass2_leftover in E. rewrite G in E. cbn [rbind] in E. inv E. inv E. unfold l2hops_remove in E. inv E. okinj E.
  cbn [set_la naddr_set_lost set_na set_h s_na s_h s_la s_env s_cur] in *. clear E0 E1 E2 a a0 a1. rewrite R1 in H.
  set (T := timer s (e_nhold (s_env s) (h_if h))).
  match type of H with (do s0 <- pass2_symtime h ?x L; _) = _ => set (sa := x) in * end.
  assert (Ga : get_l sa L = Ok l) by exact G.
  assert (NAa : s_na sa = upd (gone N) (na_set_lost T) (s_na s)) by reflexivity.
  assert (Ha : s_h sa = del (gone2 L N s) (s_h s)) by reflexivity.
  assert (LAa : s_la sa = del (fun x => (la_l x =? L) && la_mbr x) (s_la s)) by reflexivity.
  assert (Ea : s_env sa = s_env s /\ s_now sa = s_now s /\ s_cur sa = s_cur s /\ s_n sa = s_n s /\ s_l sa = s_l s) by (repeat split; reflexivity).
  assert (Fa : frame L N s sa).
  { constructor; try reflexivity; intros x Hx.
    - rewrite NAa, in_upd. split.
      + intros (y & Hy & ->). destruct (gone N y) eqn:B; auto. apply andb_true_iff in B. destruct B as [B _]. apply Z.eqb_eq in B. cbn in Hx. congruence.
      + intros I. exists x. split; auto. destruct (gone N x) eqn:B; auto. apply andb_true_iff in B. destruct B as [B _]. apply Z.eqb_eq in B. congruence.
    - rewrite LAa, in_del. split; [tauto|]. intros I. split; auto. apply Z.eqb_neq in Hx. rewrite Hx. auto.
    - rewrite Ha, in_del. split; [tauto|]. intros I. split; auto. unfold gone2. apply Z.eqb_neq in Hx. rewrite Hx. auto. }
  assert (Ka : map nk (s_na sa) = map nk (s_na s)) by (rewrite NAa; apply map_upd; reflexivity).
  clearbody sa. destruct Ea as (Ea1 & Ea2 & Ea3 & Ea4 & Ea5).
  inv H. rename a into sb. destruct (symtime_effect h sa L N l sb Ga En E) as (Fb & LAb & Cb & Ob & Kb & lb & Gb & Pb & B1 & B2).
  inv H. rename a into sc. destruct (times_effect h sb L N lb sc Gb E0) as (Fc & LAc & Cc & Oc & NAc & Hc & lc & Gc & Pc & C1 & C2 & C3).
  inv H. rename a into sd. destruct (quiet_set_originator sc N (h_orig h) sd E1) as [Qd Od].
  destruct (get_l_LS sc sd L lc (q_l _ _ Qd) Gc) as (ld & Gd & Ed). apply lstrip_same in Ed. destruct Ed as (D1 & D2 & D3 & D4 & D5 & D6 & D7 & D8 & D9).
  assert (Pd : same_peer l ld).
  { eapply same_peer_trans; [exact Pb|]. eapply same_peer_trans; [exact Pc|]. unfold same_peer. auto 10. }
  assert (Nd : l_n ld = N) by (destruct Pd as (_ & P2 & _); congruence).
  destruct (update_effect sd L N ld s' Gd Nd H) as (st & Cs & U). pose proof U as [U1 U2 U3 U4 U5 U6 U7 U8].
  assert (FR : frame L N s s').
  { eapply frame_trans; [exact Fa|]. eapply frame_trans; [exact Fb|]. eapply frame_trans; [exact Fc|]. eapply frame_trans; [apply quiet_frame; exact Qd|exact U1]. }
  split; [exact FR|]. split; [rewrite U3, (q_la _ _ Qd), LAc, LAb, LAa; reflexivity|]. split; [rewrite U6, (q_na _ _ Qd), NAc, Kb, Ka; reflexivity|].
  exists (l_set_status st ld). split; [eapply get_l_set; eauto|]. split; [eapply same_peer_trans; [exact Pd|unfold same_peer; auto 10]|].
  intros F V.
  assert (Oad : forall z, s_n z = s_n s -> map n_orig (s_n z) = map n_orig (s_n s)) by congruence.
  assert (Fsd : free0 h sd ld).
  { eapply free0_peer; [exact Pd| | |exact F].
    - rewrite (q_env _ _ Qd), (f_env _ _ _ _ Fc), (f_env _ _ _ _ Fb). auto.
    - eapply origs_trans; [|exact Od]. apply origs_same. rewrite Oc, Ob, Ea4. auto. }
  assert (Est : st = by_timers ld) by (eapply calc_timers; [apply Fsd|exact Cs]).
  assert (Now : s_now sb = s_now s) by (rewrite (f_now _ _ _ _ Fb); auto).
  assert (Tm : forall z r, s_now z = s_now s -> timer z r = timer s r) by (intros z r Ez; unfold timer; now rewrite Ez).
  assert (SYM : l_sym ld = if c_heard (s_cur s) then timer s (h_vtime h) else if c_lost (s_cur s) then None else l_sym l).
  { rewrite D7, C2. rewrite Ea3 in B1, B2. destruct (c_heard (s_cur s)); [destruct (B1 eq_refl) as (-> & _); apply Tm; auto|]. destruct (B2 eq_refl) as (_ & _ & _ & ->). auto. }
  assert (Bt : by_timers (l_set_status st ld) = by_timers ld) by reflexivity.
  (* the combined effect on addresses and two-hop addresses *)
  assert (CMB : (st = SYMMETRIC \/ l_status l <> SYMMETRIC -> s_h s' = s_h sa /\ forall x, In x (s_na s') -> In x (s_na sa) \/ exists x0, In x0 (s_na sa) /\ x = na_set_lost None x0) /\
                ((l_status l = SYMMETRIC <-> st = SYMMETRIC) -> s_na s' = s_na sa)).
  { rewrite (q_h _ _ Qd), (q_na _ _ Qd), Hc, NAc in U8. rewrite (q_na _ _ Qd), NAc in U7. rewrite D6, C1 in U7, U8. rewrite Ea3 in B1, B2.
    destruct (c_heard (s_cur s)) eqn:CH.
    - destruct (B1 eq_refl) as (_ & st1 & S1 & S2 & S3). rewrite S2 in U7, U8.
      assert (AC : active (timer sa (h_vtime h)) = true) by (unfold timer; apply Z.eqb_neq in V; rewrite V; reflexivity).
      assert (X1 : st1 = SYMMETRIC).
      { assert (FF : free (upd_l sa L (l_set_sym (timer sa (h_vtime h)))) (l_set_sym (timer sa (h_vtime h)) l)).
        { apply (free0_peer h s (upd_l sa L (l_set_sym (timer sa (h_vtime h)))) l (l_set_sym (timer sa (h_vtime h)) l)); auto.
          - unfold same_peer. auto 10.
          - apply origs_same. change (s_n (upd_l sa L (l_set_sym (timer sa (h_vtime h))))) with (s_n sa). now rewrite Ea4. }
        rewrite (calc_timers _ _ _ FF S1). unfold by_timers. cbn [l_sym l_set_sym]. rewrite AC. reflexivity. }
      assert (X2 : st = SYMMETRIC) by (rewrite Est; unfold by_timers; rewrite SYM, <- (Tm sa) by auto; rewrite AC; reflexivity).
      destruct (U8 (or_introl X2)) as (V1 & _). assert (V2 : s_na s' = s_na sb) by (apply U7; tauto).
      destruct S3 as [_ _ _ _ _ _ S7 S8]. change (s_na (upd_l sa L _)) with (s_na sa) in S7, S8. change (s_h (upd_l sa L _)) with (s_h sa) in S8.
      split.
      + intros _. destruct (S8 (or_introl X1)) as (Y1 & Y2). split; [congruence|]. rewrite V2. exact Y2.
      + intros Q. rewrite V2. apply S7. rewrite X1. rewrite X2 in Q. exact Q.
    - destruct (B2 eq_refl) as (S1 & S2 & S3 & _). rewrite S1, S2 in U7, U8. rewrite S3 in U8. split; auto. }
  destruct CMB as (CM1 & CM2). constructor.
  - exact SYM.
  - change (l_heard (l_set_status st ld)) with (l_heard ld). rewrite D8, C3. rewrite (Tm sb) by auto.
    unfold heard_time. change (l_sym (l_set_status st ld)) with (l_sym ld). rewrite Now, D7, C2. reflexivity.
  - exact Est.
  - change (l_status (l_set_status st ld)) with st. intros Q. destruct (CM1 Q) as (Y1 & Y2). split; [congruence|].
    intros x Hx. assert (X : exists x1, In x1 (s_na sa) /\ nk x = nk x1 /\ (na_lost x = None \/ na_lost x = na_lost x1)).
    { destruct (Y2 x Hx) as [Z | (x1 & Z1 & ->)]; [exists x; auto|exists x1; split; auto]. }
    destruct X as (x1 & X1 & X2 & X3). rewrite NAa in X1. apply in_upd in X1. destruct X1 as (x0 & X0 & ->). exists x0. split; auto. split.
    + rewrite X2. destruct (gone N x0); reflexivity.
    + destruct X3 as [-> | ->]; auto. destruct (gone N x0); auto.
  - change (l_status (l_set_status st ld)) with st. intros Q. rewrite (CM2 Q). exact NAa.
Qed.

(** ** The whole HELLO *)
Lemma frame_accepted_others s s' L N : frame L N s s' ->
  (forall l, l_id l <> L -> (In l (s_l s') -> exists l', In l' (s_l s) /\ same_link l l') /\ (In l (s_l s) -> exists l', In l' (s_l s') /\ same_link l l')) /\
  (forall i k, i <> N -> ((exists n, In n (s_n s') /\ n_id n = i /\ n_sym n = k) <-> (exists n, In n (s_n s) /\ n_id n = i /\ n_sym n = k))).
Proof.
  intros [F1 F2 F3 F4 F5 F6 F7 F8]. split.
  - intros l NE. split; intros H; apply in_LS in H; apply F1 in H; auto; unfold LS in H; apply in_map_iff in H; destruct H as (l' & E & H); exists l'; split; auto; apply lstrip_same; auto.
  - intros i k NE. specialize (F2 i k NE). unfold CN in F2. rewrite !in_map_iff in F2. destruct F2 as [A B]. split; intros (n & H1 & H2 & H3).
    + destruct A as (m & E & Hm); [exists n; split; auto; congruence|]. injection E as E1 E2. eauto.
    + destruct B as (m & E & Hm); [exists n; split; auto; congruence|]. injection E as E1 E2. eauto.
Qed.
Lemma hello_post s h : wf s -> coherent s h ->
  exists s' L N, process_hello s h = Ok s' /\ wf s' /\ accepted s h s' L N /\
    (no_loop s h L -> timely s h -> exists l', In l' (s_l s') /\ l_id l' = L /\ settled s h s' l' N).
Proof.
  intros W [(OK & OKs) ACT IF ND TH ON OL NL].
  destruct (process_hello_ok s h W) as (s' & PH & W'); [cbn; rewrite OK; left; exact ON|].
  exists s'. pose proof PH as PH0. unfold process_hello in PH. rewrite OK, ACT in PH. cbn [negb andb] in PH.
  assert (EX : existsb (Z.eqb (h_if h)) (s_ifs s) = true) by (apply existsb_exists; exists (h_if h); split; auto; apply Z.eqb_refl).
  rewrite EX in PH. cbn [negb] in PH. cbv zeta in PH.
  match type of PH with (let '(_, _) := ?p in _) = _ => change p with (pass1 h (start s h) (h_addrs h)) in PH end.
  pose proof (start_same s h) as SS. assert (W0 : wf (start s h)) by (eapply same_wf; eauto).
  destruct (start_quiet s h) as [Q0 O0].
  destruct (pass1_ok h (h_addrs h) (start s h) (start s h) [] W0 (start_p1 s h)) as (Q & P1 & PQ).
  pose proof (pass1_quiet h (h_addrs h) (start s h) OKs) as X. cbv zeta in X. destruct X as (Q1 & O1 & CH & CLo).
  assert (DR : snd (pass1 h (start s h) (h_addrs h)) = false).
  { clear -OKs. revert OKs. generalize (start s h) as z. induction (h_addrs h) as [|x l IH]; intros z F; cbn [pass1]; auto.
    inversion F as [|? ? (F1 & _) F2]; subst. rewrite F1. auto. }
  rewrite PQ in P1 by auto. cbn [app] in P1.
  destruct (pass1 h (start s h) (h_addrs h)) as [s1 d1] eqn:EP1. cbn [fst snd] in *. subst d1. inv PH. destruct a as [[s2 L] N].
  assert (KN : forall i, kn (start s h) (h_addrs h) i <-> known_neigh s h i) by (intros i; rewrite <- kn_known; unfold kn; now rewrite (e_NA _ _ SS)).
  assert (KL : forall i, kl (start s h) (h_if h) (h_addrs h) i <-> known_link s h i) by (intros i; rewrite <- kl_known; unfold kl; now rewrite (e_LA _ _ SS)).
  assert (ON' : one (kn (start s h) (h_addrs h))) by (intros i j Hi Hj; apply ON; now apply KN).
  assert (OL' : one (kl (start s h) (h_if h) (h_addrs h))) by (intros i j Hi Hj; apply OL; now apply KL).
  destruct (pass1_end_post h (start s h) s1 s2 L N W0 P1) as (EN & EL & ENn); auto.
  { intros i n f Hi Hk. apply KN. apply KL in Hk. rewrite (e_LI _ _ SS) in Hi. unfold LI in Hi. apply in_map_iff in Hi. destruct Hi as (l & El & Hl). injection El as E1 E2 E3.
    rewrite <- E2. apply NL; auto. rewrite E1. auto. }
  destruct (pass1_end_ok h (start s h) s1 W0 P1) as (z & L' & ln & N' & Ez & P2); [exact IF|left; exact ON'|]. rewrite Ez in E. injection E as -> -> ->.
  destruct EN as [Fe He Ce1 Ce2 LAe NAe NAe0 Oe (l2 & G2 & Nl2 & If2 & Ad2 & Mc2 & St2)].
  assert (ln = N).
  { destruct P2 as [W2 (H2 & _) _ _ _ _ _]. pose proof (get_l_inv _ _ _ G2) as (I2 & D2 & _). apply in_LI in I2. rewrite D2 in I2. pose proof (LI_fun _ _ _ _ W2 I2 H2). congruence. }
  subst ln. inv PH. destruct a as [s3 d3].
  assert (NA1 : s_na s1 = s_na s) by (rewrite (q_na _ _ Q1); apply (q_na _ _ Q0)).
  assert (LA1 : s_la s1 = s_la s) by (rewrite (q_la _ _ Q1); apply (q_la _ _ Q0)).
  destruct (mid_all h L N s2 (h_addrs h) s2 [] s3 d3 (mid_start h L N s2) P2) as (M & -> & P3); auto.
  { clear -OKs. induction OKs as [|x l (_ & A) F IH]; constructor; auto. }
  { intros x i Hx Tx Hi. unfold LA in Hi. apply in_map_iff in Hi. destruct Hi as (la & Ela & Hla). injection Ela as A1 A2 A3. destruct (Z.eq_dec i L) as [|NE]; auto. apply EL. apply KL.
    apply (f_la _ _ _ _ Fe) in Hla; [|congruence]. rewrite LA1 in Hla. exists x, la. auto 10. }
  { intros x i Hx Tx Hi. unfold NA in Hi. apply in_map_iff in Hi. destruct Hi as (na & Ena & Hna). injection Ena as A1 A2. destruct (Z.eq_dec i N) as [|NE]; auto. apply ENn. apply KN.
    apply (f_na _ _ _ _ Fe) in Hna; [|congruence]. rewrite NA1 in Hna. exists x, na. auto 10. }
  cbn [app] in M. destruct M as [M1 M2 M3 M4 M5 M6 M7 M8 M9 M10 M11].
  destruct (get_l_LS s2 s3 L l2 M2 G2) as (l3 & G3 & E3). apply lstrip_same in E3. destruct E3 as (T1 & T2 & T3 & T4 & T5 & T6 & T7 & T8 & T9).
  destruct (pass2_end_post h L N s3 l3 s' P3 G3) as (Ff & LAf & Kf & l' & Gl' & Pl' & FIN); [congruence|exact PH|].
  assert (FR : frame L N s s').
  { eapply frame_trans; [apply quiet_frame; exact Q0|]. eapply frame_trans; [apply quiet_frame; exact Q1|]. eapply frame_trans; [exact Fe|]. eapply frame_trans; [exact M1|exact Ff]. }
  pose proof (get_l_inv _ _ _ Gl') as (Il' & Dl' & _). destruct Pl' as (Y1 & Y2 & Y3 & Y4 & Y5).
  assert (NK : forall x, In x (s_na s') -> exists x3, In x3 (s_na s3) /\ nk x3 = nk x).
  { intros x Hx. apply (in_map nk) in Hx. rewrite Kf in Hx. apply in_map_iff in Hx. destruct Hx as (x3 & E3 & H3). eauto. }
  assert (NK' : forall x, In x (s_na s3) -> exists x', In x' (s_na s') /\ nk x' = nk x).
  { intros x Hx. apply (in_map nk) in Hx. rewrite <- Kf in Hx. apply in_map_iff in Hx. destruct Hx as (x3 & E3 & H3). eauto. }
  exists L, N. split; [exact PH0|]. split; [exact W'|]. split.
  - destruct (frame_accepted_others s s' L N FR) as (FO1 & FO2). constructor; auto.
    + intros i Hi. apply EL. now apply KL.
    + intros i Hi. apply ENn. now apply KN.
    + exists l'. split; auto. split; auto. split; [congruence|]. split; congruence.
    + intros a. split.
      * intros (la & H1 & H2 & <-). rewrite LAf in H1. apply in_del in H1. destruct H1 as [H1 H3]. rewrite H2, Z.eqb_refl in H3. cbn [andb] in H3.
        destruct (M6 la H1 H2) as [((y & V1 & V2 & V3) & V4) | V]; eauto. rewrite (LAe la V H2) in H3. discriminate.
      * intros (x & H1 & H2 & <-). destruct (M7 x H1 H2) as (la & V1 & V2 & V3 & V4). exists la. split; auto. rewrite LAf. apply in_del. split; auto. rewrite V4. apply andb_false_r.
    + intros a. split.
      * intros (na & H1 & H2 & <-). destruct (NK na H1) as (x3 & V1 & V2). unfold nk in V2. injection V2 as V2 V3 V4. rewrite <- V3 in H2.
        destruct (M8 x3 V1 H2) as [(Z1 & _) | (_ & Z2)].
        -- left. destruct Z1 as (y & A1 & A2 & A3). exists y. rewrite <- V2. auto.
        -- destruct (NAe x3 Z2 H2) as (x0 & A1 & A2 & A3 & _). right. exists x0. rewrite <- NA1. split; auto. split; auto. congruence.
      * intros [(x & H1 & H2 & H3) | (na & H1 & H2 & H3)].
        -- destruct (M9 a) as (x3 & A1 & A2 & A3); [exists x; auto|]. destruct (NK' x3 A1) as (x' & B1 & B2). unfold nk in B2. injection B2 as B2 B3 B4. exists x'. split; auto. split; congruence.
        -- rewrite <- NA1 in H1. destruct (NAe0 na H1 H2) as (x2 & A1 & A2 & A3). destruct (M10 x2 A1 A2) as (x3 & B1 & B2 & B3).
           destruct (NK' x3 B1) as (x' & D1 & D2). unfold nk in D2. injection D2 as D2 D3 D4. exists x'. split; auto. split; congruence.
    + apply FR.
    + apply FR.
    + apply FR.
    + split; [|split]; apply FR.
  - intros [S1 S2 S3 S4] (V1 & V2 & V3 & V4). exists l'. split; auto. split; auto.
    (* the state before *)
    assert (ENV3 : s_env s3 = s_env s) by (rewrite (f_env _ _ _ _ M1), (f_env _ _ _ _ Fe), (q_env _ _ Q1); apply (q_env _ _ Q0)).
    assert (NOW3 : s_now s3 = s_now s) by (rewrite (f_now _ _ _ _ M1), (f_now _ _ _ _ Fe), (q_now _ _ Q1); apply (q_now _ _ Q0)).
    assert (ENV2 : s_env s2 = s_env s) by (rewrite (f_env _ _ _ _ Fe), (q_env _ _ Q1); apply (q_env _ _ Q0)).
    assert (NOW2 : s_now s2 = s_now s) by (rewrite (f_now _ _ _ _ Fe), (q_now _ _ Q1); apply (q_now _ _ Q0)).
    assert (LS1 : LS s1 = LS s) by (rewrite (q_l _ _ Q1); apply (q_l _ _ Q0)).
    assert (OLD : forall l, In l (s_l s1) -> exists l0, In l0 (s_l s) /\ same_link l l0).
    { intros l Hl. apply in_LS in Hl. rewrite LS1 in Hl. unfold LS in Hl. apply in_map_iff in Hl. destruct Hl as (l0 & El & Hl). exists l0. split; auto. apply lstrip_same. auto. }
    assert (OLD2 : forall l, In l (s_l s) -> exists l0, In l0 (s_l s1) /\ same_link l l0).
    { intros l Hl. apply in_LS in Hl. rewrite <- LS1 in Hl. unfold LS in Hl. apply in_map_iff in Hl. destruct Hl as (l0 & El & Hl). exists l0. split; auto. apply lstrip_same. auto. }
    assert (OS : old_sym s L (l_sym l3) /\ (was_sym s L <-> l_status l3 = SYMMETRIC) /\ forall d, l_sym l3 = Some d -> s_now s < d < 2 ^ 64).
    { destruct St2 as [(l & I1 & I2 & I3 & I4) | (I1 & I2 & I3)].
      - destruct (OLD l I1) as (l0 & J1 & J2 & J3 & J4 & J5 & J6 & J7 & J8 & J9 & J10). split; [left; exists l0; split; auto; split; congruence|]. split.
        + split; [|intros C; exists l0; split; auto; split; congruence]. intros (k & K1 & K2 & K3).
          assert (k = l0) by (apply (in_map_inj l_id (s_l s)); auto; [apply W|congruence]). subst k. congruence.
        + intros d Hd. apply (V4 l0 d J1). congruence.
      - assert (NO : forall l, In l (s_l s) -> l_id l <> L).
        { intros l Hl C. destruct (OLD2 l Hl) as (l0 & J1 & J2 & _). apply (I1 l0 J1). congruence. }
        split; [right; split; auto; congruence|]. split.
        + split; [intros (k & K1 & K2 & _); exfalso; eapply NO; eauto|]. intros C. rewrite T6, I2 in C. discriminate.
        + intros d Hd. rewrite T7, I3 in Hd. discriminate. }
    destruct OS as (OS1 & OS2 & OS3).
    assert (ORIG : forall x, In x (map n_orig (s_n s3)) -> In x (map n_orig (s_n s)) \/ x = UNSPEC).
    { intros x Hx. rewrite M4 in Hx. apply Oe in Hx. rewrite O1, O0 in Hx. tauto. }
    assert (FREE : free0 h s3 l3).
    { unfold free0, free. rewrite ENV3. replace (l_if l3) with (h_if h) by congruence. replace (l_ifaddr l3) with (h_src h) by congruence. replace (l_id l3) with L by congruence.
      cbv zeta in S2, S3. split; [|destruct S2 as [S2 | (S2 & S5 & S6)]; auto]. split; [exact S1|]. split; [|split; [|exact S4]].
      - destruct S2 as [S2 | (S2 & S5 & S6)]; auto. destruct (Z.eq_dec (a_af (e_orig (s_env s) (a_af (h_src h)))) 0) as [|NE]; auto. right. split; auto.
        intros C. apply ORIG in C. destruct C as [C | C].
        + apply in_map_iff in C. destruct C as (n & C1 & C2). apply (S6 n C2 C1).
        + apply NE. rewrite C. reflexivity.
      - rewrite T5. destruct S3 as (S3 & S5). destruct Mc2 as [-> | [-> | (l & I1 & ->)]]; auto.
        destruct (OLD l I1) as (l0 & J1 & J2 & J3 & J4 & J5 & J6 & J7). right. rewrite J6. intros C. apply (S5 l0 J1). auto. }
    assert (VN : h_vtime h <> 0) by (clear - V2; lia). specialize (FIN FREE VN). destruct FIN as [F1 F2 F3 F4 F5].
    assert (CUR : c_heard (s_cur s3) = c_heard (s_cur s1) /\ c_lost (s_cur s3) = c_lost (s_cur s1)) by (rewrite (x_cur _ _ M5); auto). destruct CUR as [CU1 CU2].
    assert (HU : c_heard (s_cur s3) = true <-> hears_us s h).
    { rewrite CU1, CH. cbn [start set_cur set_n set_l s_cur c_heard c_if s_env]. unfold says, hears_us. cbn. split; [intros [C | C]; [discriminate|exact C]|auto]. }
    assert (LU : c_lost (s_cur s3) = true <-> lost_us s h).
    { rewrite CU2, CLo. cbn [start set_cur set_n set_l s_cur c_heard c_if s_env]. unfold says, lost_us. cbn. split; [intros [C | C]; [discriminate|exact C]|auto]. }
    assert (TV : timer s3 (h_vtime h) = Some (s_now s + h_vtime h)).
    { unfold timer. rewrite NOW3. replace (h_vtime h =? 0) with false by (symmetry; apply Z.eqb_neq; exact VN). rewrite u64_id; auto. unfold is_u64. clear - V1 V2 V3; lia. }
    assert (SYMD : forall d, l_sym l' = Some d -> s_now s < d < 2 ^ 64).
    { intros d Hd. rewrite F1 in Hd. destruct (c_heard (s_cur s3)); [rewrite TV in Hd; injection Hd as <-; clear - V1 V2 V3; lia|]. destruct (c_lost (s_cur s3)); [discriminate|auto]. }
    assert (HT : l_heard l' = Some (match l_sym l' with Some d => Z.max d (s_now s + h_vtime h) | None => s_now s + h_vtime h end)).
    { rewrite F2. unfold heard_time. rewrite NOW3. destruct (l_sym l') as [d|] eqn:Sd; [|exact TV]. specialize (SYMD d eq_refl).
      rewrite u64_id by (unfold is_u64; clear - SYMD V1; lia). destruct (d - s_now s <? h_vtime h) eqn:B.
      - apply Z.ltb_lt in B. rewrite TV. f_equal. clear - B; lia.
      - apply Z.ltb_ge in B. unfold timer. rewrite NOW3. replace (d - s_now s =? 0) with false by (symmetry; apply Z.eqb_neq; clear - SYMD; lia).
        f_equal. replace (s_now s + (d - s_now s)) with d by (clear; lia). rewrite u64_id by (unfold is_u64; clear - SYMD V1; lia). clear - B; lia. }
    assert (WS : was_sym s (l_id l') <-> l_status l3 = SYMMETRIC) by (rewrite Dl'; exact OS2).
    constructor.
    + split; [|split].
      * intros C. apply HU in C. rewrite C in F1. congruence.
      * intros C D. apply LU in D. rewrite D in F1. destruct (c_heard (s_cur s3)); auto. exfalso. tauto.
      * intros C D. destruct (c_heard (s_cur s3)); [exfalso; tauto|]. destruct (c_lost (s_cur s3)); [exfalso; tauto|]. rewrite F1, Dl'. exact OS1.
    + exact HT.
    + rewrite F3. unfold by_timers. rewrite HT. destruct (l_sym l'); reflexivity.
    + intros C na x I1 I2 I3 I4 I5. rewrite WS in C. destruct (F4 C) as (_ & F6). destruct (F6 na I1) as (x0 & J1 & J2 & J3). unfold nk in J2. injection J2 as J2 J4 J5.
      assert (LI0 : listed (h_addrs h) (na_addr x0)) by (exists x; split; auto; split; auto; congruence).
      destruct (M8 x0 J1) as [(A1 & A2 & A3) | (A1 & _)]; [congruence| |tauto]. unfold gone in J3. rewrite A2, A3, andb_false_r in J3. destruct J3; auto.
    + intros C na I1 I2 I3 I4. rewrite (F5 ltac:(rewrite <- WS; tauto)) in I1. apply in_upd in I1. destruct I1 as (x0 & J1 & J2).
      assert (X : na_n na = na_n x0 /\ na_addr na = na_addr x0) by (subst na; destruct (gone N x0); auto). destruct X as [X1 X2].
      destruct (M8 x0 J1) as [((y & A1 & A2 & A3) & _) | (A1 & A2)]; [congruence|exfalso; apply (I4 y A1 A2); congruence|].
      destruct (NAe x0 A2) as (x1 & B1 & B2 & B3 & B4); [congruence|]. assert (GN : gone N x0 = true).
      { unfold gone. rewrite B4 by congruence. rewrite <- X1, I2, Z.eqb_refl. reflexivity. }
      rewrite GN in J2. subst na. cbn. unfold timer. rewrite NOW3, ENV3. reflexivity.
    + intros C x (X1 & X2 & X3 & X4). rewrite WS in C. destruct (F4 C) as (F6 & _).
      assert (TA : third_at s2 (h_if h) x) by (unfold third_at; rewrite ENV2; auto). destruct (M11 x X1 TA) as (A1 & A2). rewrite Dl'. split.
      * intros Rx NoN. destruct (A1 Rx) as (y & B1 & B2 & B3 & B4). exists y. split; [|split; auto; split; auto; rewrite B4; unfold timer; now rewrite NOW2].
        rewrite F6. apply in_del. split; auto. unfold gone2. apply andb_false_iff. right. apply not_true_is_false. intros G. apply existsb_exists in G.
        destruct G as (z & Z1 & Z2). apply andb_true_iff in Z2. destruct Z2 as [Z2 Z3]. apply addr_eqb_eq in Z3. unfold gone in Z2. apply andb_true_iff in Z2. destruct Z2 as [Z2 Z4]. apply Z.eqb_eq in Z2.
        destruct (M8 z Z1 Z2) as [(_ & Z5 & _) | (_ & Z5)]; [congruence|]. destruct (NAe z Z5 Z2) as (x1 & D1 & D2 & D3 & _). rewrite NA1 in D1. apply (NoN x1 D1 D2). congruence.
      * intros Rx y Hy Ly. rewrite F6 in Hy. apply in_del in Hy. destruct Hy as [Hy _]. eapply A2; eauto.
Qed.
