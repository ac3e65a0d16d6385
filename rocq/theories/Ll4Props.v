(** Theorems about the generation of IPv4 link-local addresses (Ll4Model.v). *)
From Verif Require Import Base BufLemmas Ll4Model.

(** ** Specification *)

(** 169.254.1.0 to 169.254.254.255, what RFC 3927 allows to use *)
Definition usable (a : Z) : Prop := 0xa9fe0100 <= a <= 0xa9fefeff.
(** the range 169.254.0.0/16 *)
Definition linklocal (a : Z) : Prop := 0xa9fe0000 <= a <= 0xa9feffff.
(** an address is taken: a neighbor has it, or would generate it from its IPv6 address *)
Definition taken (sgn : bool) (neigh : list naddr) (a : Z) : Prop :=
  In (V4 a) neigh \/ exists k, In (V6 k) neigh /\ a mod 65536 = host_part sgn k.
(** addresses the user set, addresses the plugin asked the system to set *)
Definition user_set (os : list op) (a : Z) : Prop := exists p, In (UserAdd a p) os.
Definition plugin_set (t : list (op * option command)) (a : Z) : Prop := exists o, In (o, Some (Set_addr a)) t.
Definition on_interface (e : env) (a : Z) : Prop := exists p, In (a, p) (e_addrs e).

Lemma host_number_range : forall n, 256 <= host_number n <= 65279.
Proof. intro n. unfold host_number. pose proof (Z.mod_pos_bound n (254 * 256)). lia. Qed.
Lemma ll_usable : forall n, usable (ll_addr (host_number n)).
Proof. intro n. unfold usable, ll_addr, ll_base. pose proof (host_number_range n). lia. Qed.
Lemma is_ll_ok : forall a, is_ll a = true <-> linklocal a.
Proof. intro a. unfold is_ll, linklocal. pose proof (Z.div_mod a 65536 ltac:(lia)). pose proof (Z.mod_pos_bound a 65536 ltac:(lia)). split; intro H1; lia. Qed.
Lemma collision_ok : forall sgn neigh a, existsb (collision sgn a) neigh = true <-> taken sgn neigh a.
Proof.
  intros sgn neigh a. rewrite existsb_exists. unfold taken. split.
  - intros ([b|k] & I1 & E); cbn [collision] in E; apply Z.eqb_eq in E; [left; subst; exact I1 | right; exists k; auto].
  - intros [I1|(k & I1 & E)]; [exists (V4 a) | exists (V6 k)]; (split; [exact I1|]); cbn [collision]; apply Z.eqb_eq; auto.
Qed.
Lemma same_ok : forall a b, same a b = true <-> a = b.
Proof. intros [x|] [y|]; cbn [same]; split; intro H; try reflexivity; try discriminate; [f_equal; lia | injection H as ->; apply Z.eqb_refl]. Qed.

Lemma current_in : forall l mine found c, current l mine found = Some c -> found = Some c \/ (linklocal c /\ exists p, In (c, p) l).
Proof.
  intros l; induction l as [|[a p] r IH]; intros mine found c H; cbn [current] in H; [auto|].
  destruct (is_ll a) eqn:L.
  - apply is_ll_ok in L. destruct (match mine with Some m => a =? m | None => false end).
    + injection H as <-. right. split; [exact L|]. exists p. left. reflexivity.
    + destruct (IH _ _ _ H) as [K|[K (q & I1)]]; [injection K as <-; right; split; [exact L|]; exists p; left; reflexivity | right; split; [exact K|]; exists q; right; exact I1].
  - destruct (IH _ _ _ H) as [K|[K (q & I1)]]; [auto | right; split; [exact K|]; exists q; right; exact I1].
Qed.
Lemma roll_some : forall sgn neigh rnds a b r, roll sgn neigh a rnds = (Some b, r) -> r = b /\ (exists x, b = Some x /\ ~ taken sgn neigh x /\ (a = Some x \/ usable x)).
Proof.
  intros sgn neigh rnds; induction rnds as [|n t IH]; intros a b r H; cbn [roll] in H; destruct (has_collision sgn neigh a) eqn:C.
  - discriminate.
  - injection H as <- <-. split; [reflexivity|]. destruct a as [x|]; [|discriminate]. exists x. split; [reflexivity|]. split; [|auto]. intro K. apply collision_ok in K. cbn [has_collision] in C. congruence.
  - destruct (IH _ _ _ H) as (E & x & EB & NT & K). split; [exact E|]. exists x. split; [exact EB|]. split; [exact NT|]. right. destruct K as [K|K]; [injection K as <-; apply ll_usable | exact K].
  - injection H as <- <-. split; [reflexivity|]. destruct a as [x|]; [|discriminate]. exists x. split; [reflexivity|]. split; [|auto]. intro K. apply collision_ok in K. cbn [has_collision] in C. congruence.
Qed.
Lemma roll_rest : forall sgn neigh rnds a r, roll sgn neigh a rnds = (None, r) -> r = a \/ exists x, r = Some x /\ usable x.
Proof.
  intros sgn neigh rnds; induction rnds as [|n t IH]; intros a r H; cbn [roll] in H; destruct (has_collision sgn neigh a); try discriminate; [injection H as <-; auto|].
  destruct (IH _ _ H) as [K|K]; [right; exists (ll_addr (host_number n)); split; [exact K | apply ll_usable] | auto].
Qed.

(** what an update may ask for *)
Lemma update_spec : forall sgn rnds e d d' c, update sgn rnds e d = (d', c) ->
  a_active d' = a_active d /\
  (forall a, a_addr d' = Some a -> a_addr d = Some a \/ usable a \/ on_interface e a) /\
  match c with
  | None => a_gen d' = a_gen d /\ a_set d' = a_set d
  | Some (Set_addr a) => a_gen d' = true /\ a_set d' = Some a /\ a_addr d' = Some a /\ e_up e = true /\ e_loop e = false /\ a_active d = true /\ e_addrs e = [] /\ ~ taken sgn (e_neigh e) a /\ (a_addr d = Some a \/ usable a)
  | Some (Unset_addr a) => a_gen d' = false /\ a_set d' = Some a /\ e_up e = true /\ e_loop e = false /\ linklocal a /\ on_interface e a /\
      ((a_gen d = true /\ a_addr d = Some a /\ (a_active d = false /\ zlen (e_addrs e) = 1 \/ a_active d = true /\ 1 < zlen (e_addrs e))) \/
       (a_active d = true /\ zlen (e_addrs e) = 1 /\ taken sgn (e_neigh e) a))
  end.
Proof.
  intros sgn rnds e d d' c H. unfold update in H. destruct (e_loop e) eqn:LO; cbn [orb] in H; [injection H as <- <-; auto|]. destruct (e_up e) eqn:UP; cbn [negb] in H; [|injection H as <- <-; auto].
  set (cur := current (e_addrs e) (a_addr d) None) in *.
  assert (CI : forall x, cur = Some x -> linklocal x /\ on_interface e x). { intros x E. apply current_in in E. destruct E as [E|[E1 E2]]; [discriminate|auto]. }
  destruct (a_active d) eqn:AC; cbn [negb] in H.
  - destruct (Z.ltb_spec 1 (zlen (e_addrs e))) as [L|L].
    + destruct cur as [x|] eqn:EC; [|injection H as <- <-; auto]. destruct (a_gen d && same (Some x) (a_addr d)) eqn:G; [|injection H as <- <-; auto].
      apply andb_prop in G. destruct G as [G1 G2]. apply same_ok in G2. unfold commit in H. injection H as <- <-. cbn [a_active a_gen a_addr a_set]. split; [exact AC|]. split; [auto|].
      destruct (CI x eq_refl) as [C1 C2]. repeat split; try apply C1; auto; left; auto.
    + destruct ((zlen (e_addrs e) =? 1) && match cur with None => true | _ => false end) eqn:NL; [injection H as <- <-; auto|].
      set (a0 := if zlen (e_addrs e) =? 1 then cur else a_addr d) in *.
      set (a1 := match a0 with None => default_addr sgn (e_v6 e) | _ => a0 end) in *.
      assert (A1 : forall x, a1 = Some x -> a_addr d = Some x \/ usable x \/ (cur = Some x /\ zlen (e_addrs e) = 1)).
      { intros x E. unfold a1 in E. destruct a0 as [y|] eqn:E0; [|unfold default_addr in E; destruct (e_v6 e); [injection E as <-; right; left; apply ll_usable | discriminate]].
        injection E as <-. unfold a0 in E0. destruct (Z.eqb_spec (zlen (e_addrs e)) 1); auto. }
      destruct (roll sgn (e_neigh e) a1 rnds) as [[b|] r] eqn:R.
      * destruct (roll_some _ _ _ _ _ _ R) as (-> & x & -> & NT & OR).
        assert (X : a_addr d = Some x \/ usable x \/ (cur = Some x /\ zlen (e_addrs e) = 1)) by (destruct OR as [OR|OR]; [apply A1; exact OR | auto]).
        assert (AD : forall y, Some x = Some y -> a_addr d = Some y \/ usable y \/ on_interface e y).
        { intros y K. injection K as <-. destruct X as [X|[X|[X _]]]; auto. right; right. apply CI. exact X. }
        destruct (same (Some x) cur) eqn:SM; [injection H as <- <-; cbn [with_addr a_active a_gen a_addr a_set]; auto|].
        destruct cur as [y|] eqn:EC; unfold commit in H; injection H as <- <-; cbn [with_addr a_active a_gen a_addr a_set]; (split; [exact AC|]); (split; [exact AD|]).
        -- destruct (CI y eq_refl) as [C1 C2].
           assert (Z1 : zlen (e_addrs e) = 1). { destruct C2 as (p & C2). destruct (e_addrs e) as [|q l]; [destruct C2|]. rewrite zlen_cons in *. pose proof (zlen_nonneg l). lia. }
           repeat split; try apply C1; auto. right. repeat split; auto.
           assert (EA : a1 = Some y) by (unfold a1, a0; rewrite Z1; reflexivity).
           apply collision_ok. rewrite EA in R. destruct rnds as [|n t]; cbn [roll has_collision] in R; destruct (existsb (collision sgn y) (e_neigh e)); auto; injection R as <-; try discriminate.
           cbn [same] in SM. rewrite Z.eqb_refl in SM. discriminate.
           cbn [same] in SM. rewrite Z.eqb_refl in SM. discriminate.
        -- assert (Z0 : e_addrs e = []). { destruct (e_addrs e) as [|q l] eqn:EE; [reflexivity|]. rewrite zlen_cons in *. pose proof (zlen_nonneg l). assert (zlen l = 0) by lia. replace (zlen l + 1 =? 1) with true in NL by lia. discriminate. }
           repeat split; auto. destruct X as [X|[X|[X _]]]; [auto|auto|discriminate].
      * injection H as <- <-. cbn [with_addr a_active a_gen a_addr a_set]. split; [exact AC|]. split; [|auto]. intros x ->.
        destruct (roll_rest _ _ _ _ _ R) as [K|(y & K & U)]; [destruct (A1 x (eq_sym K)) as [X|[X|[X _]]]; auto; right; right; apply CI; exact X | injection K as <-; auto].
  - destruct cur as [x|] eqn:EC; [|injection H as <- <-; auto]. destruct (a_gen d && (zlen (e_addrs e) =? 1) && same (Some x) (a_addr d)) eqn:G; [|injection H as <- <-; auto].
    apply andb_prop in G. destruct G as [G G2]. apply andb_prop in G. destruct G as [G1 G3]. apply same_ok in G2. unfold commit in H. injection H as <- <-. cbn [a_active a_gen a_addr a_set]. split; [exact AC|]. split; [auto|].
    destruct (CI x eq_refl) as [C1 C2]. repeat split; try apply C1; auto. left. repeat split; auto. left. split; [auto|lia].
Qed.

(** ** Runs *)

Lemma in_insert : forall p q l, In q (insert p l) -> q = p \/ In q l.
Proof.
  intros p q l; induction l as [|x r IH]; cbn [insert]; intro H; [destruct H as [->|[]]; auto|].
  destruct ((fst p <? fst x) || ((fst p =? fst x) && (snd p <? snd x))); [destruct H as [->|H]; auto|]. destruct ((fst p =? fst x) && (snd p =? snd x)); [auto|].
  destruct H as [->|H]; [right; left; reflexivity|]. destruct (IH H); [auto | right; right; assumption].
Qed.
Lemma in_without : forall p q l, In q (without p l) -> In q l.
Proof. intros p q l H. apply filter_In in H. tauto. Qed.

(** what is on the interface was set by somebody, and so was (or is usable) the address
    the plugin thinks of *)
Definition origin (os : list op) (t : list (op * option command)) (w : world) : Prop :=
  (forall a, on_interface (fst w) a -> user_set os a \/ plugin_set t a) /\
  (forall a, a_addr (snd w) = Some a -> usable a \/ user_set os a) /\
  (forall a, plugin_set t a -> usable a \/ user_set os a).
Lemma user_more : forall os o a, user_set os a -> user_set (os ++ [o]) a.
Proof. intros os o a (p & H). exists p. apply in_app_iff. auto. Qed.
Lemma plugin_more : forall t x a, plugin_set t a -> plugin_set (t ++ [x]) a.
Proof. intros t x a (o & H). exists o. apply in_app_iff. auto. Qed.
Lemma apply_on : forall c e a, on_interface (apply c e) a -> on_interface e a \/ c = Set_addr a.
Proof.
  intros [x|x] e a (p & H); cbn [apply with_addrs e_addrs] in H.
  - apply in_insert in H. destruct H as [H|H]; [injection H as -> ->; auto | left; exists p; exact H].
  - left. exists p. eapply in_without; eauto.
Qed.
Lemma step_origin : forall sgn os t w o w' c, origin os t w -> step sgn o w = (w', c) -> origin (os ++ [o]) (t ++ [(o, c)]) w'.
Proof.
  intros sgn os t [e d] o w' c (A & B & C) H. cbn [fst snd] in *.
  assert (US : forall a, user_set os a -> user_set (os ++ [o]) a) by (intros; apply user_more; assumption).
  assert (PS : forall a, plugin_set t a -> plugin_set (t ++ [(o, c)]) a) by (intros; apply plugin_more; assumption).
  assert (PI : forall a, plugin_set (t ++ [(o, c)]) a -> plugin_set t a \/ c = Some (Set_addr a)).
  { intros a (o' & I1). apply in_app_iff in I1. destruct I1 as [I1|[I1|[]]]; [left; exists o'; exact I1 | injection I1 as -> ->; auto]. }
  assert (AB : forall a, on_interface e a -> user_set (os ++ [o]) a \/ plugin_set (t ++ [(o, c)]) a) by (intros a K; destruct (A a K); auto).
  assert (BB : forall a, a_addr d = Some a -> usable a \/ user_set (os ++ [o]) a) by (intros a K; destruct (B a K); auto).
  assert (CC : c = None \/ (exists a, c = Some (Unset_addr a)) -> forall a, plugin_set (t ++ [(o, c)]) a -> usable a \/ user_set (os ++ [o]) a).
  { intros N a K. destruct (PI a K) as [K1|K1]; [destruct (C a K1); auto|]. destruct N as [N|[b N]]; congruence. }
  destruct o; cbn [step] in H.
  - destruct (update sgn rnds e d) as [d' c'] eqn:U. injection H as <- <-. destruct (update_spec _ _ _ _ _ _ U) as (_ & UA & UC). split; [|split]; cbn [fst snd].
    + intros a K. destruct c' as [c'|]; [|auto]. destruct ok; [|auto]. apply apply_on in K. destruct K as [K|K]; [auto|]. right. subst c'. exists (Update rnds true). apply in_app_iff. right. left. reflexivity.
    + intros a K. destruct (UA a K) as [K1|[K1|K1]]; auto. destruct (A a K1) as [K2|K2]; [auto|]. destruct (C a K2); auto.
    + intros a K. destruct (PI a K) as [K1|K1]; [destruct (C a K1); auto|]. rewrite K1 in UC. destruct UC as (_ & _ & _ & _ & _ & _ & _ & _ & [K2|K2]); auto.
  - injection H as <- <-. split; [|split]; cbn [fst snd]; auto.
    intros x (p & K). cbn [with_addrs e_addrs] in K. apply in_insert in K. destruct K as [K|K]; [injection K as -> ->; left; exists plen; apply in_app_iff; right; left; reflexivity | apply AB; exists p; exact K].
  - injection H as <- <-. split; [|split]; cbn [fst snd]; auto. intros x (p & K). apply AB. exists p. cbn [with_addrs e_addrs] in K. eapply in_without; exact K.
  - injection H as <- <-. split; [|split]; cbn [fst snd]; auto.
  - injection H as <- <-. split; [|split]; cbn [fst snd]; auto.
  - injection H as <- <-. split; [|split]; cbn [fst snd]; auto.
  - destruct (a_set d) as [x|]; [|injection H as <- <-; split; [|split]; cbn [fst snd]; auto].
    destruct (a_active d && a_gen d); injection H as <- <-; (split; [|split]); cbn [fst snd]; auto.
    + intros y K. apply (apply_on (Unset_addr x)) in K. destruct K as [K|K]; [auto|discriminate].
    + apply CC. right. eauto.
Qed.
Lemma run_origin : forall sgn os os0 t0 w w' t, origin os0 t0 w -> run sgn os w = (w', t) -> origin (os0 ++ os) (t0 ++ t) w'.
Proof.
  intros sgn os; induction os as [|o r IH]; intros os0 t0 w w' t A H; cbn [run] in H; [injection H as <- <-; rewrite !app_nil_r; exact A|].
  destruct (step sgn o w) as [w1 c] eqn:S1. destruct (run sgn r w1) as [w2 t2] eqn:R. injection H as <- <-.
  replace (os0 ++ o :: r) with ((os0 ++ [o]) ++ r) by (rewrite <- app_assoc; reflexivity). replace (t0 ++ (o, c) :: t2) with ((t0 ++ [(o, c)]) ++ t2) by (rewrite <- app_assoc; reflexivity).
  apply (IH _ _ w1); [eapply step_origin; eauto | exact R].
Qed.
Lemma init_origin : forall b, origin [] [] (init b).
Proof. intro b. split; [|split]; cbn [init fst snd]; [intros a (p & []) | discriminate | intros a (o & [])]. Qed.

(** * C141: which addresses are set *)

(** an address is set only on an interface that is up, active for the plugin and without
    IPv4 address; no neighbor has the address or would generate it; it is usable or was
    set by the user before.  The full claim, always usable, is refuted below. *)
Theorem C141_set_partial : forall sgn loop os w t rnds ok w' a, run sgn os (init loop) = (w, t) -> step sgn (Update rnds ok) w = (w', Some (Set_addr a)) ->
  (usable a \/ user_set os a) /\ e_up (fst w) = true /\ loop = false /\ a_active (snd w) = true /\ e_addrs (fst w) = [] /\ ~ taken sgn (e_neigh (fst w)) a.
Proof.
  intros sgn loop os [e d] t rnds ok w' a R H. pose proof (run_origin _ _ _ _ _ _ _ (init_origin loop) R) as (_ & B & _). cbn [app fst snd] in *.
  cbn [step] in H. destruct (update sgn rnds e d) as [d' c] eqn:U. injection H as <- ->. destruct (update_spec _ _ _ _ _ _ U) as (_ & _ & _ & _ & _ & UP & LO & AC & ED & NT & OR).
  assert (LL : forall os w w' t, run sgn os w = (w', t) -> e_loop (fst w') = e_loop (fst w)).
  { clear. intros os; induction os as [|o r IH]; intros w w' t H; cbn [run] in H; [injection H as <- <-; reflexivity|]. destruct (step sgn o w) as [w1 c] eqn:S1. destruct (run sgn r w1) as [w2 t2] eqn:R. injection H as <- <-. rewrite (IH _ _ _ R).
    destruct w as [e d]. destruct o; cbn [step] in S1; try (injection S1 as <- <-; reflexivity).
    - destruct (update sgn rnds e d) as [d' [c'|]]; injection S1 as <- <-; [destruct ok; [destruct c'; reflexivity|reflexivity] | reflexivity].
    - destruct (a_set d); [destruct (a_active d && a_gen d)|]; injection S1 as <- <-; reflexivity. }
  pose proof (LL _ _ _ _ R) as LE. cbn [init fst e_loop] in LE. repeat split; auto; [destruct OR; auto | congruence].
Qed.
(** the address made from an IPv6 address is usable, and the address a neighbor makes
    from an IPv6 address it announces is never set *)
Theorem C141_default : forall sgn key, usable (ll_addr (host_part sgn key)).
Proof. intros. apply ll_usable. Qed.
Theorem C141_not_of_neighbor_partial : forall sgn loop os w t rnds ok w' a key, run sgn os (init loop) = (w, t) -> step sgn (Update rnds ok) w = (w', Some (Set_addr a)) ->
  In (V6 key) (e_neigh (fst w)) -> a <> ll_addr (host_part sgn key).
Proof.
  intros sgn loop os w t rnds ok w' a key R H I1 E. destruct (C141_set_partial _ _ _ _ _ _ _ _ _ R H) as (_ & _ & _ & _ & _ & NT). apply NT. right. exists key. split; [exact I1|].
  subst a. unfold ll_addr, ll_base, host_part. pose proof (host_number_range (hash_end (fold_left (hash_step sgn) key 0))) as HR.
  set (n := host_number (hash_end (fold_left (hash_step sgn) key 0))) in *. replace (2851995648 + n) with (n + 43518 * 65536) by lia. rewrite Z.mod_add by lia. apply Z.mod_small. lia.
Qed.

(** * C142: addresses of the user *)

(** an address is removed only when it is link-local and present: because a neighbor
    collides with it, or because the plugin generated an address and there are others
    now or the plugin is not active any more *)
Theorem C142_removed_partial : forall sgn loop os w t rnds ok w' a, run sgn os (init loop) = (w, t) -> step sgn (Update rnds ok) w = (w', Some (Unset_addr a)) ->
  linklocal a /\ on_interface (fst w) a /\
  ((a_gen (snd w) = true /\ a_addr (snd w) = Some a /\ (a_active (snd w) = false \/ 1 < zlen (e_addrs (fst w)))) \/ taken sgn (e_neigh (fst w)) a).
Proof.
  intros sgn loop os [e d] t rnds ok w' a R H. cbn [fst snd] in *. cbn [step] in H. destruct (update sgn rnds e d) as [d' c] eqn:U. injection H as <- ->.
  destruct (update_spec _ _ _ _ _ _ U) as (_ & _ & _ & _ & _ & _ & LL & OI & K). repeat split; try apply LL; auto. destruct K as [(K1 & K2 & K3)|(K1 & K2 & K3)]; [|auto]. left. repeat split; auto. destruct K3 as [[K3 _]|[_ K3]]; auto.
Qed.
(** while the user sets no link-local addresses, only addresses are removed that the
    plugin set *)
Theorem C142_own_partial : forall sgn loop os w t rnds ok w' a, run sgn os (init loop) = (w, t) -> (forall b, user_set os b -> ~ linklocal b) ->
  step sgn (Update rnds ok) w = (w', Some (Unset_addr a)) -> plugin_set t a.
Proof.
  intros sgn loop os w t rnds ok w' a R NU H. destruct (C142_removed_partial _ _ _ _ _ _ _ _ _ R H) as (LL & OI & _).
  destruct (run_origin _ _ _ _ _ _ _ (init_origin loop) R) as (A & _). destruct (A a OI) as [K|K]; [exfalso; exact (NU a K LL) | exact K].
Qed.

(** * C143: an address is found and kept *)

(** a link-local address that no neighbor collides with is kept *)
Theorem C143_kept : forall sgn rnds ok e d a p, e_up e = true -> e_loop e = false -> a_active d = true -> e_addrs e = [(a, p)] -> ~ taken sgn (e_neigh e) a -> linklocal a ->
  step sgn (Update rnds ok) (e, d) = ((e, with_addr d (Some a)), None).
Proof.
  intros sgn rnds ok e d a p UP LO AC EA NT LL. cbn [step]. unfold update. rewrite LO, UP, AC, EA. cbn [orb negb]. rewrite zlen_cons. change (zlen (@nil (Z * Z)) + 1) with 1.
  change (1 <? 1) with false. change (1 =? 1) with true. cbv iota. cbn [current]. apply is_ll_ok in LL. rewrite LL.
  assert (C : existsb (collision sgn a) (e_neigh e) = false) by (destruct (existsb (collision sgn a) (e_neigh e)) eqn:E; [apply collision_ok in E; contradiction | reflexivity]).
  assert (R : roll sgn (e_neigh e) (Some a) rnds = (Some (Some a), Some a)) by (destruct rnds; cbn [roll has_collision]; rewrite C; reflexivity).
  destruct (match a_addr d with Some m => a =? m | None => false end); cbn [andb]; rewrite R; cbn [same]; rewrite Z.eqb_refl; reflexivity.
Qed.
Lemma roll_finds : forall sgn neigh rnds a, (exists n, In n rnds /\ ~ taken sgn neigh (ll_addr (host_number n))) -> exists x, roll sgn neigh a rnds = (Some (Some x), Some x) /\ ~ taken sgn neigh x.
Proof.
  intros sgn neigh rnds; induction rnds as [|n t IH]; intros a (m & I1 & NT); [destruct I1|]. cbn [roll]. destruct (has_collision sgn neigh a) eqn:C.
  - destruct I1 as [->|I1]; [|apply IH; exists m; auto]. set (y := ll_addr (host_number m)) in *. assert (E : existsb (collision sgn y) neigh = false) by (destruct (existsb (collision sgn y) neigh) eqn:E; [apply collision_ok in E; contradiction | reflexivity]).
    exists y. split; [|exact NT]. destruct t; cbn [roll has_collision]; rewrite E; reflexivity.
  - destruct a as [x|]; [|discriminate]. exists x. split; [reflexivity|]. intro K. apply collision_ok in K. cbn [has_collision] in C. congruence.
Qed.
(** an interface without IPv4 address gets one that is free, when the random numbers
    contain a free one *)
Theorem C143_found : forall sgn rnds e d, e_up e = true -> e_loop e = false -> a_active d = true -> e_addrs e = [] ->
  (exists n, In n rnds /\ ~ taken sgn (e_neigh e) (ll_addr (host_number n))) ->
  exists a d', step sgn (Update rnds true) (e, d) = ((with_addrs e [(a, 16)], d'), Some (Set_addr a)) /\ ~ taken sgn (e_neigh e) a /\ a_active d' = true /\ a_addr d' = Some a.
Proof.
  intros sgn rnds e d UP LO AC EA RN. cbn [step]. unfold update. rewrite LO, UP, AC, EA. cbn [orb negb zlen length]. change (zlen (@nil (Z * Z))) with 0. change (1 <? 0) with false. change (0 =? 1) with false. cbn [current andb].
  match goal with |- context [roll sgn (e_neigh e) ?A rnds] => destruct (roll_finds sgn (e_neigh e) rnds A RN) as (x & R & NT) end. rewrite R. cbn [same]. unfold commit. cbn [apply]. rewrite EA. cbn [insert].
  exists x. eexists. split; [reflexivity|]. repeat split; auto.
Qed.
(** a colliding address (set with prefix length 16, as the plugin does) is replaced in
    two updates *)
Theorem C143_replaced_partial : forall sgn rnds rnds2 e d a, e_up e = true -> e_loop e = false -> a_active d = true -> e_addrs e = [(a, 16)] -> linklocal a -> taken sgn (e_neigh e) a ->
  (exists n, In n rnds /\ ~ taken sgn (e_neigh e) (ll_addr (host_number n))) ->
  exists b d' t, run sgn [Update rnds true; Update rnds2 true] (e, d) = ((with_addrs e [(b, 16)], d'), t) /\ ~ taken sgn (e_neigh e) b.
Proof.
  intros sgn rnds rnds2 e d a UP LO AC EA LL TK RN.
  assert (S1 : exists x, step sgn (Update rnds true) (e, d) = ((with_addrs e [], {| a_active := true; a_gen := false; a_addr := Some x; a_set := Some a |}), Some (Unset_addr a)) /\ ~ taken sgn (e_neigh e) x).
  { cbn [step]. unfold update. rewrite LO, UP, AC, EA. cbn [orb negb]. rewrite zlen_cons. change (zlen (@nil (Z * Z)) + 1) with 1. change (1 <? 1) with false. change (1 =? 1) with true. cbv iota. cbn [current]. pose proof (proj2 (is_ll_ok a) LL) as IL. rewrite IL.
    destruct (roll_finds sgn (e_neigh e) rnds (Some a) RN) as (x & R & NT).
    assert (NE : (x =? a) = false) by (destruct (Z.eqb_spec x a); [subst; contradiction|reflexivity]).
    exists x. split; [|exact NT]. destruct (match a_addr d with Some m => a =? m | None => false end); cbn [andb]; rewrite R; cbn [same]; rewrite NE; unfold commit; cbn [apply with_addr a_active]; rewrite EA; unfold without; cbn [filter fst snd]; rewrite Z.eqb_refl; change (16 =? 16) with true; cbn [andb negb]; rewrite AC; reflexivity. }
  destruct S1 as (x & S1 & NT). cbn [run]. rewrite S1.
  set (d1 := {| a_active := true; a_gen := false; a_addr := Some x; a_set := Some a |}).
  assert (S2 : step sgn (Update rnds2 true) (with_addrs e [], d1) = ((with_addrs e [(x, 16)], {| a_active := true; a_gen := true; a_addr := Some x; a_set := Some x |}), Some (Set_addr x))).
  { cbn [step]. unfold update. cbn [with_addrs e_loop e_up e_addrs e_neigh]. rewrite LO, UP. cbn [d1 a_active a_addr orb negb]. change (zlen (@nil (Z * Z))) with 0. change (1 <? 0) with false. change (0 =? 1) with false. cbn [current andb].
    assert (C : existsb (collision sgn x) (e_neigh e) = false) by (destruct (existsb (collision sgn x) (e_neigh e)) eqn:E; [apply collision_ok in E; contradiction | reflexivity]).
    assert (R : roll sgn (e_neigh e) (Some x) rnds2 = (Some (Some x), Some x)) by (destruct rnds2; cbn [roll has_collision]; rewrite C; reflexivity).
    rewrite R. reflexivity. }
  rewrite S2. exists x. do 2 eexists. split; [reflexivity | exact NT].
Qed.

(** ** Examples and refutations *)

Definition fe80 (l : bytes) : bytes := [254; 128; 0; 0; 0; 0; 0; 0] ++ l.
Definition k1 : bytes := fe80 [2; 0; 94; 255; 254; 0; 83; 1].
Definition k2 : bytes := fe80 [2; 0; 94; 255; 254; 0; 83; 2].
Definition begin : list op := [Link true (Some k1); Active true].

(** first the default address, a free random one when a neighbor has the same; it is
    taken away when the user sets an address *)
Example C141_ex : exists w t a b, run true (begin ++ [Neighbors [V6 k2]; Update [] true; Neighbors [V6 k2; V4 a]; Update [7; 8] true; Update [] true; Update [] true; UserAdd 0x0a000001 24; Update [] true]) (init false) = (w, t) /\
  map snd t = [None; None; None; Some (Set_addr a); None; Some (Unset_addr a); Some (Set_addr b); None; None; Some (Unset_addr b)] /\
  a = ll_addr (host_part true k1) /\ b = 0xa9fe0107 /\ usable a /\ e_addrs (fst w) = [(0x0a000001, 24)].
Proof. do 4 eexists. split; [|split; [|split; [reflexivity|split; [reflexivity|split; [apply ll_usable|]]]]]; vm_compute; reflexivity. Qed.
Example C142_ex : exists w t w' a, run true (begin ++ [Update [] true; UserAdd 0x0a000001 24]) (init false) = (w, t) /\ (forall b, user_set (begin ++ [Update [] true; UserAdd 0x0a000001 24]) b -> ~ linklocal b) /\
  step true (Update [] true) w = (w', Some (Unset_addr a)) /\ plugin_set t a.
Proof.
  do 4 eexists. split; [vm_compute; reflexivity|]. split; [|split; [vm_compute; reflexivity|]].
  - intros b (p & H). cbn in H. repeat destruct H as [H|H]; try discriminate; [|destruct H]. injection H as <- <-. unfold linklocal. lia.
  - eexists. right; right; left. vm_compute. reflexivity.
Qed.
Example C143_ex : exists e d n, fst (run true (begin ++ [UserAdd 0xa9fe0203 16; Neighbors [V4 0xa9fe0203]]) (init false)) = (e, d) /\ e_up e = true /\ e_loop e = false /\ a_active d = true /\
  e_addrs e = [(0xa9fe0203, 16)] /\ linklocal 0xa9fe0203 /\ taken true (e_neigh e) 0xa9fe0203 /\ ~ taken true (e_neigh e) (ll_addr (host_number n)).
Proof.
  do 2 eexists. exists 5. split; [vm_compute; reflexivity|]. do 4 (split; [reflexivity|]). split; [unfold linklocal; lia|]. split; [left; left; reflexivity|].
  cbn [e_neigh]. intros [[H|[]]|(k & [H|[]] & _)]; vm_compute in H; discriminate.
Qed.

(** C141: an address outside of the usable range, that the user had set and removed, is
    set again by the plugin *)
Theorem C141_set_refuted : exists os w t, run true os (init false) = (w, t) /\ (exists o, In (o, Some (Set_addr 0xa9fe0005)) t) /\ ~ usable 0xa9fe0005 /\
  os = begin ++ [UserAdd 0xa9fe0005 16; Update [] true; UserDel 0xa9fe0005 16; Update [] true].
Proof. do 3 eexists. split; [|split; [|split; [|reflexivity]]]; [vm_compute; reflexivity | eexists; do 5 right; left; vm_compute; reflexivity | unfold usable; lia]. Qed.
(** the number made from an IPv6 address depends on the signedness of char: two routers
    of different kind do not agree, so that a router may set the address that its
    neighbor generates *)
Theorem C141_same_everywhere_refuted : exists key rnds w t w' a, host_part true key <> host_part false key /\
  run true [Link true None; Active true; Neighbors [V6 key]] (init false) = (w, t) /\ step true (Update rnds true) w = (w', Some (Set_addr a)) /\ a = ll_addr (host_part false key).
Proof.
  exists k1, [host_part false k1 - 256]. do 4 eexists. split; [vm_compute; discriminate|]. split; [vm_compute; reflexivity|]. split; vm_compute; reflexivity.
Qed.

(** C142: an address of the user is removed when a neighbor collides with it *)
Theorem C142_user_kept_refuted : exists os w t, run true os (init false) = (w, t) /\ In (Update [3] true, Some (Unset_addr 0xa9fe0203)) t /\ (forall a, ~ plugin_set t a) /\
  os = begin ++ [UserAdd 0xa9fe0203 16; Neighbors [V4 0xa9fe0203]; Update [3] true].
Proof.
  do 3 eexists. split; [|split; [|split; [|reflexivity]]]; [vm_compute; reflexivity | do 4 right; left; vm_compute; reflexivity|].
  intros a (o & H). cbn in H. repeat destruct H as [H|H]; try (destruct H; fail); vm_compute in H; discriminate.
Qed.
(** the user replaced the generated address by another link-local address; when they add
    one more, theirs is removed without any collision *)
Theorem C142_replaced_refuted : exists os w t, run true os (init false) = (w, t) /\ In (Update [] true, Some (Unset_addr 0xa9fe0203)) t /\ (forall o, ~ In (o, Some (Set_addr 0xa9fe0203)) t) /\
  os = [Link true None; Active true; Update [0] true; UserDel 0xa9fe0100 16; UserAdd 0xa9fe0203 16; Update [] true; UserAdd 0x0a000001 24; Update [] true].
Proof.
  do 3 eexists. split; [|split; [|split; [|reflexivity]]]; [vm_compute; reflexivity | do 7 right; left; vm_compute; reflexivity|].
  intros o H. cbn in H. repeat destruct H as [H|H]; try (destruct H; fail); vm_compute in H; discriminate.
Qed.

(** C143: a colliding address set with another prefix length than 16 stays for ever *)
Definition wrong_prefix : world := fst (run true (begin ++ [UserAdd 0xa9fe0203 24; Neighbors [V4 0xa9fe0203]]) (init false)).
Theorem C143_prefix_refuted : forall rs w t, (forall o, In o rs -> exists r ok, o = Update r ok) -> run true rs wrong_prefix = (w, t) -> e_addrs (fst w) = [(0xa9fe0203, 24)] /\ taken true (e_neigh (fst w)) 0xa9fe0203.
Proof.
  assert (G : forall rs e d w t, (forall o, In o rs -> exists r ok, o = Update r ok) -> e_addrs e = [(0xa9fe0203, 24)] -> taken true (e_neigh e) 0xa9fe0203 -> run true rs (e, d) = (w, t) ->
    e_addrs (fst w) = [(0xa9fe0203, 24)] /\ taken true (e_neigh (fst w)) 0xa9fe0203).
  { intros rs; induction rs as [|o r IH]; intros e d w t A EA TK H; cbn [run] in H; [injection H as <- <-; auto|].
    destruct (A o (or_introl eq_refl)) as (rn & ok & ->). destruct (step true (Update rn ok) (e, d)) as [[e1 d1] c] eqn:S1. destruct (run true r (e1, d1)) as [w2 t2] eqn:R. injection H as <- <-.
    cbn [step] in S1. destruct (update true rn e d) as [d' c'] eqn:U. injection S1 as <- <- <-. destruct (update_spec _ _ _ _ _ _ U) as (_ & _ & UC).
    assert (K : forall x, without (x, 16) (e_addrs e) = e_addrs e). { intro x. rewrite EA. unfold without. cbn [filter fst snd]. change (24 =? 16) with false. rewrite andb_false_r. reflexivity. }
    destruct c' as [[x|x]|]; [destruct UC as (_ & _ & _ & _ & _ & _ & Z0 & _); rewrite EA in Z0; discriminate | |eapply IH; eauto; intros; apply A; right; assumption].
    eapply IH; [intros; apply A; right; assumption | | |exact R]; destruct ok; cbn [apply with_addrs e_addrs e_neigh]; auto; rewrite K; exact EA. }
  intros rs w t A H. unfold wrong_prefix in H.
  destruct (run true (begin ++ [UserAdd 2852127235 24; Neighbors [V4 2852127235]]) (init false)) as [[e d] t0] eqn:E. vm_compute in E. injection E as <- <- <-. cbn [fst] in H. eapply G; [exact A| | |exact H]; [reflexivity|]. left. left. reflexivity.
Qed.
(** the system refused once to remove the generated address after the user set one: the
    plugin never tries again *)
Definition refused : list op := [Link true None; Active true; Update [0] true; UserAdd 0x0a000001 24; Update [] false].
Theorem C143_retry_refuted : forall rs w t, (forall o, In o rs -> exists r ok, o = Update r ok) -> run true rs (fst (run true refused (init false))) = (w, t) ->
  e_addrs (fst w) = [(0x0a000001, 24); (0xa9fe0100, 16)] /\ forall x, In x t -> snd x = None.
Proof.
  assert (G : forall rs e d w t, (forall o, In o rs -> exists r ok, o = Update r ok) -> e_addrs e = [(0x0a000001, 24); (0xa9fe0100, 16)] -> a_gen d = false -> a_active d = true -> run true rs (e, d) = (w, t) ->
    e_addrs (fst w) = [(0x0a000001, 24); (0xa9fe0100, 16)] /\ forall x, In x t -> snd x = None).
  { intros rs; induction rs as [|o r IH]; intros e d w t A EA GE AC H; cbn [run] in H; [injection H as <- <-; split; [exact EA | intros x []]|].
    destruct (A o (or_introl eq_refl)) as (rn & ok & ->). destruct (step true (Update rn ok) (e, d)) as [[e1 d1] c] eqn:S1. destruct (run true r (e1, d1)) as [w2 t2] eqn:R. injection H as <- <-.
    assert (U : update true rn e d = (d, None)).
    { unfold update. destruct (e_loop e || negb (e_up e)); [reflexivity|]. rewrite AC. cbn [negb]. rewrite EA. change (1 <? zlen [(0x0a000001, 24); (0xa9fe0100, 16)]) with true. cbv iota.
      rewrite GE. cbn [andb]. destruct (current _ _ _); reflexivity. }
    cbn [step] in S1. rewrite U in S1. injection S1 as <- <- <-. destruct (IH e d w2 t2 ltac:(intros; apply A; right; assumption) EA GE AC R) as [K1 K2]. split; [exact K1|].
    intros x [<-|I1]; [reflexivity | exact (K2 x I1)]. }
  intros rs w t A H. destruct (run true refused (init false)) as [[e d] t0] eqn:E. vm_compute in E. injection E as <- <- <-. cbn [fst] in H. eapply G; [exact A| | | |exact H]; reflexivity.
Qed.
(** a plugin that is not active any more leaves the generated address when the user has
    set another one *)
Theorem C143_inactive_refuted : exists os w t rnds ok, run true os (init false) = (w, t) /\ step true (Update rnds ok) w = (w, None) /\ a_active (snd w) = false /\ a_gen (snd w) = true /\
  e_addrs (fst w) = [(0x0a000001, 24); (0xa9fe0100, 16)] /\ plugin_set t 0xa9fe0100 /\ os = [Link true None; Active true; Update [0] true; Active false; UserAdd 0x0a000001 24].
Proof.
  do 3 eexists. exists [1], true. split; [|split; [|split; [|split; [|split; [|split; [|reflexivity]]]]]]; try (vm_compute; reflexivity).
  eexists. right; right; left. vm_compute. reflexivity.
Qed.

Print Assumptions C141_set_partial.
Print Assumptions C141_default.
Print Assumptions C141_not_of_neighbor_partial.
Print Assumptions C141_set_refuted.
Print Assumptions C141_same_everywhere_refuted.
Print Assumptions C142_removed_partial.
Print Assumptions C142_own_partial.
Print Assumptions C142_user_kept_refuted.
Print Assumptions C142_replaced_refuted.
Print Assumptions C143_kept.
Print Assumptions C143_found.
Print Assumptions C143_replaced_partial.
Print Assumptions C143_prefix_refuted.
Print Assumptions C143_retry_refuted.
Print Assumptions C143_inactive_refuted.
