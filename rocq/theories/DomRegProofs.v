(** Proofs about the registry of metric and MPR algorithms (C77, C78). *)
From Verif Require Import Base StrBase CompModel CompProofs DomModel DomRegModel DomRegSpec.
From Verif Require DomProofs DomLink.
From Coq Require Import Sorted.
Local Notation zset_some := DomProofs.zset_some.
Local Notation Forall_zget := DomLink.Forall_zget.
Local Notation In_zget := DomLink.In_zget'.

Lemma eqb_refl s : strcase_eqb s s = true.
Proof. apply str_eqb_refl. Qed.
Lemma eqb_map a b : strcase_eqb a b = true <-> map tolower a = map tolower b.
Proof. apply str_eqb_eq. Qed.
Lemma eqb_sym a b : strcase_eqb a b = strcase_eqb b a.
Proof.
  destruct (strcase_eqb a b) eqn:E; symmetry; [apply eqb_map in E; apply eqb_map; auto|].
  destruct (strcase_eqb b a) eqn:F; auto. apply eqb_map in F. symmetry in F. apply eqb_map in F. congruence.
Qed.
Lemma eqb_trans a b c : strcase_eqb a b = true -> strcase_eqb b c = strcase_eqb a c.
Proof.
  intros H. apply eqb_map in H. unfold strcase_eqb. now rewrite H.
Qed.

(** * users and log *)
Lemma users_cons s l k : users (s :: l) k = (if s_alg s =? k then 1 else 0) + users l k.
Proof. unfold users. cbn [filter]. destruct (s_alg s =? k); [unfold zlen; cbn [length]; lia|lia]. Qed.
Lemma users_nonneg l k : 0 <= users l k.
Proof. apply zlen_nonneg. Qed.
Lemma users_app a b k : users (a ++ b) k = users a k + users b k.
Proof. unfold users. rewrite filter_app. unfold zlen. rewrite app_length. lia. Qed.
Lemma users_pos l k : 0 < users l k <-> exists s, In s l /\ s_alg s = k.
Proof.
  induction l as [|s l IH].
  - unfold users, zlen; cbn. split; [lia|intros (s & [] & _)].
  - rewrite users_cons. pose proof (users_nonneg l k). destruct (Z.eqb_spec (s_alg s) k).
    + split; [intros _; exists s; cbn; auto|lia].
    + split; [intros Q; destruct (proj1 IH ltac:(lia)) as (t & I & E); exists t; cbn; auto|].
      intros (t & [->|I] & E); [congruence|]. assert (0 < users l k) by (apply IH; eauto). lia.
Qed.
Lemma users_set_nth l : forall n s s' k, nth_error l n = Some s ->
  users (set_nth l n s') k = users l k - (if s_alg s =? k then 1 else 0) + (if s_alg s' =? k then 1 else 0).
Proof.
  induction l as [|x l IH]; intros [|n] s s' k H; cbn in H; try discriminate; cbn [set_nth]; rewrite !users_cons.
  - injection H as ->. lia.
  - rewrite (IH n s s' k H). lia.
Qed.
Lemma users_zset l i s s' l' : zget l i = Some s -> zset l i s' = Some l' -> forall k,
  users l' k = users l k - (if s_alg s =? k then 1 else 0) + (if s_alg s' =? k then 1 else 0).
Proof.
  intros G H k. unfold zset in H. unfold zget in G. destruct (i <? 0) eqn:E; [discriminate|].
  destruct ((0 <=? i) && (i <? zlen l)); [|discriminate]. injection H as <-. now apply users_set_nth.
Qed.

Lemma on_snoc l c k : on (l ++ [c]) k = match c with Enable j => if j =? k then true else on l k | Disable j => if j =? k then false else on l k end.
Proof. unfold on. rewrite fold_left_app. reflexivity. Qed.
Lemma alternates_snoc l c k : alternates k l -> (c = Enable k -> on l k = false) -> (c = Disable k -> on l k = true) -> alternates k (l ++ [c]).
Proof.
  intros A E D p c' q H. destruct q as [|x q] using rev_ind.
  - apply app_inj_tail in H. destruct H as (<- & <-). auto.
  - clear IHq. change (c' :: q ++ [x]) with ((c' :: q) ++ [x]) in H. rewrite app_assoc in H. apply app_inj_tail in H.
    destruct H as (H & _). eapply A; eauto.
Qed.

(** * Invariant *)
Record wf (names : list bytes) (r : reg) : Prop := {
  w_names : map a_name (r_algs r) = names;
  w_tree : Forall (fun k => 1 <= k < zlen names) (r_tree r);
  w_slots : Forall (fun s => 0 <= s_alg s < zlen names) (r_slots r);
  w_some : 1 <= zlen (r_slots r);
  w_ref : forall k a, zget (r_algs r) k = Some a -> a_ref a = users (r_slots r) k;
  w_on : forall k, 1 <= k < zlen names -> (on (r_log r) k = true <-> 0 < users (r_slots r) k) /\ alternates k (r_log r) }.

Lemma algs_len names r : map a_name (r_algs r) = names -> zlen (r_algs r) = zlen names.
Proof. intros <-. symmetry. apply DomProofs.zlen_map. Qed.
Lemma name_of_names names r k : map a_name (r_algs r) = names -> name_of r k = zget names k.
Proof. intros <-. unfold name_of. rewrite DomProofs.zget_map. now destruct (zget (r_algs r) k). Qed.

Lemma map_set_nth {A B} (f : A -> B) l : forall n x a, nth_error l n = Some a -> f x = f a -> map f (set_nth l n x) = map f l.
Proof.
  induction l as [|y l IH]; intros [|n] x a H E; cbn in *; try discriminate; auto.
  - injection H as ->. congruence.
  - f_equal. eapply IH; eauto.
Qed.
Lemma map_zset {A B} (f : A -> B) l i x a l' : zget l i = Some a -> f x = f a -> zset l i x = Some l' -> map f l' = map f l.
Proof.
  intros G E H. unfold zset in H. unfold zget in G. destruct (i <? 0); [discriminate|].
  destruct ((0 <=? i) && (i <? zlen l)); [|discriminate]. injection H as <-. eapply map_set_nth; eauto.
Qed.
Lemma Forall_zset {A} (P : A -> Prop) l i x l' : Forall P l -> P x -> zset l i x = Some l' -> Forall P l'.
Proof.
  intros F H S1. unfold zset in S1. destruct ((0 <=? i) && (i <? zlen l)); [|discriminate]. injection S1 as <-.
  now apply Forall_set_nth.
Qed.

Lemma add_ref_ok names r k d : map a_name (r_algs r) = names -> 0 <= k < zlen names -> exists l,
  add_ref r k d = Some (mkReg l (r_tree r) (r_slots r) (r_log r)) /\ map a_name l = names /\
  forall j a, zget l j = Some a -> exists b, zget (r_algs r) j = Some b /\ a_ref a = a_ref b + (if j =? k then d else 0).
Proof.
  intros N H. pose proof (algs_len _ _ N) as L. unfold add_ref.
  destruct (zget_Some (r_algs r) k ltac:(lia)) as (a & Ha). rewrite Ha.
  destruct (zset_some (r_algs r) k (mkAlg (a_name a) (a_ref a + d)) ltac:(lia)) as (l & S1). rewrite S1.
  exists l. split; [reflexivity|]. split; [rewrite <- N; eapply map_zset; [exact Ha| |exact S1]; reflexivity|].
  intros j b Hb. rewrite (zget_zset _ _ _ _ _ S1) in Hb. destruct (Z.eqb_spec j k) as [->|].
  - injection Hb as <-. exists a. auto.
  - exists b. split; auto. lia.
Qed.

Definition cb_log (b : bool) (c : call) (log : list call) : list call := if b then log ++ [c] else log.

Lemma remove_alg_ok names r i s : wf names r -> zget (r_slots r) i = Some s -> s_alg s <> 0 ->
  exists r', remove_alg r i = Some r' /\ wf names r' /\ r_tree r' = r_tree r /\
    zset (r_slots r) i (mkSlot NO_NAME 0) = Some (r_slots r') /\
    r_log r' = cb_log (users (r_slots r) (s_alg s) =? 1) (Disable (s_alg s)) (r_log r).
Proof.
  intros [N T F S0 R O] Hs K. unfold remove_alg. rewrite Hs.
  pose proof ((proj1 (Forall_zget _ _) F) _ _ Hs) as Bk. cbn in Bk.
  destruct (add_ref_ok names r (s_alg s) (-1) N Bk) as (l1 & E1 & N1 & R1). rewrite E1. cbn [r_algs].
  destruct (zget_Some l1 (s_alg s)) as (a & Ha). { rewrite <- (DomProofs.zlen_map a_name l1), N1. lia. }
  rewrite Ha. destruct (R1 _ _ Ha) as (b & Hb & Eb). rewrite Z.eqb_refl in Eb. pose proof (R _ _ Hb) as Rb.
  destruct (zset_some (r_slots r) i (mkSlot NO_NAME 0) (zget_bound _ _ _ Hs)) as (sl & S1).
  assert (a_ref a =? 0 = (users (r_slots r) (s_alg s) =? 1)) as EZ by (destruct (Z.eqb_spec (a_ref a) 0), (Z.eqb_spec (users (r_slots r) (s_alg s)) 1); lia).
  rewrite EZ. destruct (Z.eqb_spec (s_alg s) 0); [lia|]. cbn [negb]. rewrite andb_true_r.
  set (c := users (r_slots r) (s_alg s) =? 1) in *.
  set (r2 := if c then call_cb (mkReg l1 (r_tree r) (r_slots r) (r_log r)) (Disable (s_alg s)) else mkReg l1 (r_tree r) (r_slots r) (r_log r)).
  assert (r2 = mkReg l1 (r_tree r) (r_slots r) (cb_log c (Disable (s_alg s)) (r_log r))) as -> by (unfold r2, cb_log; destruct c; reflexivity).
  unfold set_slot. cbn [r_slots r_algs r_tree r_log]. rewrite S1.
  destruct (add_ref_ok names (mkReg l1 (r_tree r) sl (cb_log c (Disable (s_alg s)) (r_log r))) 0 1 N1 ltac:(lia)) as (l2 & E2 & N2 & R2).
  rewrite E2. cbn [r_slots r_algs r_tree r_log] in *.
  eexists. split; [reflexivity|]. cbn [r_slots r_algs r_tree r_log]. split; [|auto].
  pose proof (users_zset _ _ _ _ _ Hs S1) as U. cbn [s_alg] in U.
  constructor; cbn [r_slots r_algs r_tree r_log]; auto.
  - eapply Forall_zset; [exact F| |exact S1]. cbn. lia.
  - rewrite (zset_len _ _ _ _ S1). auto.
  - intros k x Hx. destruct (R2 _ _ Hx) as (y & Hy & Ey). destruct (R1 _ _ Hy) as (z & Hz & Ez). rewrite U, Ey, Ez, (R _ _ Hz).
    rewrite (Z.eqb_sym (s_alg s) k), (Z.eqb_sym 0 k). destruct (k =? 0), (k =? s_alg s); lia.
  - intros k Hk. destruct (O k Hk) as (O1 & O2). pose proof (U k) as Uk. destruct (Z.eqb_spec 0 k); [lia|].
    pose proof (users_nonneg (r_slots r) k) as Pk. destruct (Z.eqb_spec (s_alg s) k) as [<-|Nk].
    + unfold cb_log, c. destruct (Z.eqb_spec (users (r_slots r) (s_alg s)) 1).
      * rewrite on_snoc, Z.eqb_refl. split; [split; [discriminate|lia]|]. apply alternates_snoc; auto; [discriminate|].
        intros _. apply O1. lia.
      * split; auto. rewrite O1. assert (0 < users (r_slots r) (s_alg s)) by (apply users_pos; exists s; split; auto; apply In_zget; eauto). lia.
    + assert (users sl k = users (r_slots r) k) as EU by lia. rewrite EU. unfold cb_log. destruct c; auto.
      rewrite on_snoc. destruct (Z.eqb_spec (s_alg s) k); [lia|]. split; auto. apply alternates_snoc; auto; congruence.
Qed.

Lemma find_name_ok r nm : forall l, (forall k, In k l -> exists n, name_of r k = Some n) ->
  exists f, find_name r l nm = Some f /\
  match f with
  | Some k => exists n, In k l /\ name_of r k = Some n /\ strcase_eqb n nm = true
  | None => forall k n, In k l -> name_of r k = Some n -> strcase_eqb n nm = false
  end.
Proof.
  induction l as [|k l IH]; intros H; cbn [find_name].
  - exists None. split; auto. intros k n [].
  - destruct (H k ltac:(left; auto)) as (n & Hn). rewrite Hn. destruct (strcase_eqb n nm) eqn:E.
    + exists (Some k). split; auto. exists n. cbn; auto.
    + destruct IH as (f & F1 & F2); [intros; apply H; right; auto|]. exists f. split; auto. destruct f as [j|].
      * destruct F2 as (m & I & R). exists m. cbn; auto.
      * intros j m [<-|I] Hm; [congruence|eauto].
Qed.

Definition nameof (names : list bytes) (k : Z) : bytes := match zget names k with Some n => n | None => [] end.
Definition sorted (names : list bytes) (l : list Z) : Prop :=
  StronglySorted (fun a b => strcasecmp (nameof names a) (nameof names b) < 0) l.
Definition names_ok (names : list bytes) : Prop := Forall cstr names.

Lemma nameof_cstr names k : names_ok names -> cstr (nameof names k).
Proof.
  intros F. unfold nameof. destruct (zget names k) eqn:E; [|constructor]. eapply (proj1 (Forall_zget _ _) F); eauto.
Qed.

Definition sel (r1 : reg) (nm : bytes) : option Z :=
  do nm' <- (if strcase_eqb nm ANY_NAME then
               match r_tree r1 with [] => Some nm | k :: _ => name_of r1 k end
             else Some nm) ;
  do f <- find_name r1 (r_tree r1) nm' ;
  Some (match f with Some k => k | None => 0 end).

Lemma sel_ok names r nm : wf names r -> names_ok names -> sorted names (r_tree r) ->
  exists k, sel r nm = Some k /\ chosen r nm k /\ (k = 0 \/ In k (r_tree r)).
Proof.
  intros [N T F S0 R O] C So. unfold sel.
  assert (forall k, In k (r_tree r) -> exists n, name_of r k = Some n) as NM.
  { intros k I. rewrite (name_of_names _ _ _ N). rewrite Forall_forall in T. apply zget_Some. specialize (T k I). cbn in T. lia. }
  destruct (strcase_eqb nm ANY_NAME) eqn:A.
  - destruct (r_tree r) as [|k t] eqn:Et.
    + exists 0. cbn. split; auto. split; [|auto]. right. split; auto. rewrite Et. intros j m [].
    + destruct (NM k ltac:(left; auto)) as (n & Hn). rewrite Hn. cbn [find_name]. rewrite Hn, eqb_refl. exists k. split; auto.
      split; [|right; left; auto]. left. exists n. rewrite Et. split; [left; auto|]. split; auto. right. split; auto.
      intros j m [<-|I] Hm.
      * assert (m = n) by congruence. subst m. assert (strcasecmp n n = 0); [|lia].
        assert (cstr n). { replace n with (nameof names k); [apply nameof_cstr; auto|]. unfold nameof. rewrite <- (name_of_names _ _ _ N), Hn. auto. }
        apply strcasecmp_eq; auto. apply eqb_refl.
      * inversion So as [|? ? _ Fs]; subst. rewrite Forall_forall in Fs. specialize (Fs j I). cbn in Fs.
        unfold nameof in Fs. rewrite <- (name_of_names _ r j eq_refl), <- (name_of_names _ r k eq_refl), Hn, Hm in Fs. lia.
  - destruct (find_name_ok r nm (r_tree r) NM) as (f & F1 & F2). rewrite F1. destruct f as [k|].
    + destruct F2 as (n & I & Hn & E). exists k. split; auto. split; auto. left. exists n. auto.
    + exists 0. split; auto. split; auto. right. split; auto. intros j m I Hm. split; auto. eapply F2; eauto.
Qed.

Lemma apply_alg_ok names r i s nm : wf names r -> names_ok names -> sorted names (r_tree r) -> zget (r_slots r) i = Some s ->
  (strcase_eqb (s_name s) nm = true /\ apply_alg r i nm = Some r) \/
  (strcase_eqb (s_name s) nm = false /\ exists r' k n sl, apply_alg r i nm = Some r' /\ wf names r' /\ r_tree r' = r_tree r /\
     chosen r nm k /\ (k = 0 \/ In k (r_tree r)) /\ name_of r k = Some n /\
     r_slots r' = sl /\ (forall j, zget sl j = if j =? i then Some (mkSlot (copy_name n) k) else zget (r_slots r) j) /\
     zlen sl = zlen (r_slots r)).
Proof.
  intros W C So Hs. unfold apply_alg. rewrite Hs. destruct (strcase_eqb (s_name s) nm) eqn:E; [left; auto|right]. split; auto.
  assert (exists r1 s1, (if s_alg s =? 0 then Some r else remove_alg r i) = Some r1 /\ wf names r1 /\ r_tree r1 = r_tree r /\
    zget (r_slots r1) i = Some s1 /\ s_alg s1 = 0 /\ (forall j, j <> i -> zget (r_slots r1) j = zget (r_slots r) j) /\ zlen (r_slots r1) = zlen (r_slots r))
    as (r1 & s1 & E1 & W1 & T1 & Hs1 & K1 & J1 & L1).
  { destruct (Z.eqb_spec (s_alg s) 0) as [Z0|NZ].
    - exists r, s. auto 10.
    - destruct (remove_alg_ok names r i s W Hs NZ) as (r1 & Q1 & Q2 & Q3 & Q4 & Q5). exists r1, (mkSlot NO_NAME 0).
      split; auto. split; auto. split; auto. split; [rewrite (zget_zset _ _ _ _ _ Q4), Z.eqb_refl; auto|]. split; auto.
      split; [intros j Hj; rewrite (zget_zset _ _ _ _ _ Q4); destruct (Z.eqb_spec j i); [lia|auto]|eapply zset_len; eauto]. }
  rewrite E1.
  assert (sorted names (r_tree r1)) as So1 by now rewrite T1.
  destruct (sel_ok names r1 nm W1 C So1) as (k & Sk & Ck & Ik).
  assert (forall (X : reg) (Y : Z -> option reg), (do nm' <- (if strcase_eqb nm ANY_NAME then
               match r_tree r1 with [] => Some nm | k :: _ => name_of r1 k end
             else Some nm) ;
    do f <- find_name r1 (r_tree r1) nm' ; Y (match f with Some k => k | None => 0 end)) = Y k) as SEL.
  { intros _ Y. unfold sel in Sk. destruct (if strcase_eqb nm ANY_NAME then _ else _) as [nm'|]; [|discriminate].
    destruct (find_name r1 (r_tree r1) nm') as [f|]; [|discriminate]. injection Sk as <-. reflexivity. }
  pose proof W1 as [N T F S0 R O].
  assert (0 <= k < zlen names) as Bk.
  { destruct Ik as [->|I]; [|rewrite Forall_forall in T; specialize (T k I); cbn in T; lia].
    pose proof ((proj1 (Forall_zget _ _) F) _ _ Hs1) as B. cbn in B. lia. }
  cbv zeta. rewrite (SEL r (fun k => do n <- name_of r1 k ;
  do s1 <- zget (r_slots r1) i ;
  do r2 <- add_ref r1 (s_alg s1) (-1) ;
  do r3 <- set_slot r2 i (mkSlot (copy_name n) k) ;
  do a <- zget (r_algs r3) k ;
  add_ref (if (a_ref a =? 0) && negb (k =? 0) then call_cb r3 (Enable k) else r3) k 1)).
  assert (exists n, name_of r1 k = Some n) as (n & Hn). { rewrite (name_of_names _ _ _ N). apply zget_Some. auto. }
  rewrite Hn, Hs1, K1.
  destruct (add_ref_ok names r1 0 (-1) N ltac:(lia)) as (l2 & E2 & N2 & R2). rewrite E2.
  unfold set_slot. cbn [r_slots r_algs r_tree r_log].
  destruct (zset_some (r_slots r1) i (mkSlot (copy_name n) k) (zget_bound _ _ _ Hs1)) as (sl & S1). rewrite S1.
  cbn [r_slots r_algs r_tree r_log].
  destruct (zget_Some l2 k) as (a & Ha). { rewrite <- (DomProofs.zlen_map a_name l2), N2. lia. }
  rewrite Ha. destruct (R2 _ _ Ha) as (b & Hb & Eb). pose proof (R _ _ Hb) as Rb.
  set (c := (a_ref a =? 0) && negb (k =? 0)).
  assert ((if c then call_cb (mkReg l2 (r_tree r1) sl (r_log r1)) (Enable k) else mkReg l2 (r_tree r1) sl (r_log r1)) =
          mkReg l2 (r_tree r1) sl (cb_log c (Enable k) (r_log r1))) as -> by (unfold cb_log; destruct c; reflexivity).
  destruct (add_ref_ok names (mkReg l2 (r_tree r1) sl (cb_log c (Enable k) (r_log r1))) k 1 N2 Bk) as (l3 & E3 & N3 & R3).
  rewrite E3. cbn [r_slots r_algs r_tree r_log] in *.
  pose proof (users_zset _ _ _ _ _ Hs1 S1) as U. rewrite K1 in U. cbn [s_alg] in U.
  eexists _, k, n, sl. split; [reflexivity|]. cbn [r_slots r_algs r_tree r_log]. split.
  { constructor; cbn [r_slots r_algs r_tree r_log]; auto.
    - eapply Forall_zset; [exact F| |exact S1]. cbn. lia.
    - rewrite (zset_len _ _ _ _ S1). auto.
    - intros j x Hx. destruct (R3 _ _ Hx) as (y & Hy & Ey). destruct (R2 _ _ Hy) as (z & Hz & Ez). rewrite U, Ey, Ez, (R _ _ Hz).
      rewrite (Z.eqb_sym k j), (Z.eqb_sym 0 j). destruct (j =? 0), (j =? k); lia.
    - intros j Hj. destruct (O j Hj) as (O1 & O2). pose proof (U j) as Uj. destruct (Z.eqb_spec 0 j); [lia|].
      pose proof (users_nonneg (r_slots r1) j) as Pj. destruct (Z.eqb_spec k j) as [<-|Nk].
      + unfold cb_log, c. destruct (Z.eqb_spec k 0); [lia|]. rewrite Rb in Eb.
        destruct (Z.eqb_spec (a_ref a) 0); cbn [andb negb].
        * rewrite on_snoc, Z.eqb_refl. split; [split; [lia|auto]|]. apply alternates_snoc; auto; [|discriminate].
          intros _. destruct (on (r_log r1) k) eqn:OE; auto. pose proof (proj1 O1 eq_refl). lia.
        * split; auto. rewrite O1. lia.
      + assert (users sl j = users (r_slots r1) j) as EU by lia. rewrite EU. unfold cb_log. destruct c; auto.
        rewrite on_snoc. destruct (Z.eqb_spec k j); [lia|]. split; auto. apply alternates_snoc; auto; congruence. }
  split; [auto|].
  assert (forall j, name_of r j = name_of r1 j) as NE.
  { intros j. destruct W as [Nr _ _ _ _ _]. now rewrite (name_of_names _ _ _ Nr), (name_of_names _ _ _ N). }
  split; [unfold chosen in *; rewrite T1 in Ck; setoid_rewrite NE; exact Ck|]. split; [now rewrite <- T1|]. split; [now rewrite NE|].
  split; auto. split; [|rewrite (zset_len _ _ _ _ S1); auto].
  intros j. rewrite (zget_zset _ _ _ _ _ S1). destruct (Z.eqb_spec j i); auto.
Qed.

(** * The tree *)
Lemma tree_insert_ok names r k : map a_name (r_algs r) = names -> names_ok names -> 0 <= k < zlen names ->
  forall l, Forall (fun k => 1 <= k < zlen names) l -> sorted names l ->
  exists t, tree_insert r k (nameof names k) l = Some t /\
  match t with
  | None => exists j, In j l /\ strcase_eqb (nameof names k) (nameof names j) = true
  | Some t' => sorted names t' /\ (forall j, In j t' <-> j = k \/ In j l) /\
               (forall j, In j l -> strcase_eqb (nameof names k) (nameof names j) = false)
  end.
Proof.
  intros N C Bk. induction l as [|j l IH]; intros V So; cbn [tree_insert].
  - eexists. split; [reflexivity|]. cbn. split; [constructor; constructor|]. split; [intuition|intros j []].
  - inversion V as [|? ? Vj V']; subst. inversion So as [|? ? So' Fj]; subst.
    assert (name_of r j = Some (nameof (map a_name (r_algs r)) j)) as Nj.
    { rewrite (name_of_names _ r j eq_refl). unfold nameof.
      destruct (zget_Some (map a_name (r_algs r)) j ltac:(lia)) as (n & ->). reflexivity. }
    set (names := map a_name (r_algs r)) in *. rewrite Nj.
    pose proof (nameof_cstr names k C) as Ck. pose proof (nameof_cstr names j C) as Cj.
    destruct (strcase_eqb (nameof names k) (nameof names j)) eqn:E.
    + exists None. split; auto. exists j. cbn; auto.
    + assert (strcasecmp (nameof names k) (nameof names j) <> 0) as NZ.
      { intros Q. apply strcasecmp_eq in Q; auto. congruence. }
      destruct (Z.ltb_spec (strcasecmp (nameof names k) (nameof names j)) 0) as [L|G].
      * eexists. split; [reflexivity|]. split; [|split].
        -- constructor; auto. constructor; auto. rewrite Forall_forall in *. intros x Ix. specialize (Fj x Ix). cbn in Fj.
           apply (strcasecmp_trans _ (nameof names j)); auto; try lia; apply nameof_cstr; auto.
        -- cbn. intuition.
        -- intros x [<-|Ix]; auto. rewrite Forall_forall in Fj. specialize (Fj x Ix). cbn in Fj.
           destruct (strcase_eqb (nameof names k) (nameof names x)) eqn:Ex; auto.
           apply strcasecmp_eq in Ex; auto; [|apply nameof_cstr; auto].
           assert (strcasecmp (nameof names k) (nameof names x) < 0); [|lia].
           apply (strcasecmp_trans _ (nameof names j)); auto; try lia; apply nameof_cstr; auto.
      * destruct (IH V' So') as (t & T1 & T2). rewrite T1. destruct t as [t|]; cbn [option_map].
        -- destruct T2 as (S2 & I2 & N2). eexists. split; [reflexivity|]. split; [|split].
           ++ constructor; auto. rewrite Forall_forall in *. intros x Ix. apply I2 in Ix. destruct Ix as [->|Ix]; auto.
              pose proof (strcasecmp_anti (nameof names k) (nameof names j)). lia.
           ++ intros x. cbn. rewrite I2. intuition.
           ++ intros x [<-|Ix]; auto.
        -- destruct T2 as (x & Ix & Ex). eexists. split; [reflexivity|]. exists x. cbn; auto.
Qed.

Lemma apply_own r i s : zget (r_slots r) i = Some s -> apply_alg r i (s_name s) = Some r.
Proof. intros H. unfold apply_alg. now rewrite H, eqb_refl. Qed.
Lemma offer_id : forall n i r, 0 <= i -> i + Z.of_nat n <= zlen (r_slots r) -> offer n i r = Some r.
Proof.
  induction n as [|n IH]; intros i r Hi H; cbn [offer]; auto.
  destruct (zget_Some (r_slots r) i ltac:(lia)) as (s & Hs). rewrite Hs, (apply_own _ _ _ Hs).
  destruct (s_alg s =? 0); apply IH; lia.
Qed.

Lemma filter_sorted names f l : sorted names l -> sorted names (filter f l).
Proof.
  induction l as [|k l IH]; intros H; cbn; auto. inversion H as [|? ? H1 H2]; subst. destruct (f k); auto. apply IH in H1.
  constructor; auto. rewrite Forall_forall in *. intros x I. apply filter_In in I. apply H2. tauto.
Qed.

Lemma first_user_ok k : forall l i, match first_user k i l with
  | Some j => exists s, i <= j < i + zlen l /\ zget l (j - i) = Some s /\ s_alg s = k
  | None => forall s, In s l -> s_alg s <> k
  end.
Proof.
  induction l as [|s l IH]; intros i; cbn [first_user].
  - intros s [].
  - destruct (Z.eqb_spec (s_alg s) k).
    + exists s. unfold zlen; cbn [length]. split; [lia|]. replace (i - i) with 0 by lia. auto.
    + specialize (IH (i + 1)). destruct (first_user k (i + 1) l) as [j|].
      * destruct IH as (t & B & G & E). exists t. unfold zlen in *; cbn [length]. split; [lia|].
        split; auto. rewrite DomMetric.zget_cons1 by lia. rewrite <- G. f_equal. lia.
      * intros t [<-|I]; auto.
Qed.

(** * Runs *)
Definition inv (names : list bytes) (r : reg) : Prop := wf names r /\ sorted names (r_tree r).

Lemma zget_snoc {A} (l : list A) x i : zget (l ++ [x]) i = if i =? zlen l then Some x else zget l i.
Proof.
  unfold zget, zlen. destruct (Z.ltb_spec i 0).
  - destruct (Z.eqb_spec i (Z.of_nat (length l))); [lia|auto].
  - destruct (Z.eqb_spec i (Z.of_nat (length l))) as [->|].
    + rewrite Nat2Z.id, nth_error_app2, Nat.sub_diag by lia. reflexivity.
    + destruct (Nat.lt_ge_cases (Z.to_nat i) (length l)).
      * now rewrite nth_error_app1.
      * rewrite nth_error_app2 by lia. rewrite (proj2 (nth_error_None l (Z.to_nat i))) by lia.
        destruct (Z.to_nat i - length l)%nat eqn:E; [lia|]. cbn. destruct n0; auto.
Qed.

Lemma wf_nonempty names r : wf names r -> 1 <= zlen names.
Proof.
  intros [N T F S0 R O]. destruct (zget_Some (r_slots r) 0 ltac:(lia)) as (s & Hs).
  pose proof ((proj1 (Forall_zget _ _) F) _ _ Hs) as B. cbn in B. lia.
Qed.

Lemma alg_add_ok mpr names r k : inv names r -> names_ok names -> 1 <= k < zlen names ->
  exists r', alg_add mpr r k = Some r' /\ inv names r' /\ r_slots r' = r_slots r /\ r_log r' = r_log r /\
    (forall j, In j (r_tree r) -> In j (r_tree r')) /\ exists j, In j (r_tree r') /\ strcase_eqb (nameof names k) (nameof names j) = true.
Proof.
  intros (W & So) C B. pose proof W as [N T F S0 R O]. unfold alg_add.
  assert (name_of r k = Some (nameof names k)) as ->.
  { rewrite (name_of_names _ _ _ N). unfold nameof. destruct (zget_Some names k ltac:(lia)) as (n & ->). reflexivity. }
  destruct (tree_insert_ok names r k N C ltac:(lia) (r_tree r) T So) as (t & E & P). rewrite E. destruct t as [t|].
  - destruct P as (S2 & I2 & N2).
    set (r1 := mkReg (r_algs r) t (r_slots r) (r_log r)).
    assert ((if mpr then do r2 <- offer (length (r_slots r) - 1) 1 r1 ; offer 1 0 r2 else Some r1) = Some r1) as ->.
    { destruct mpr; auto. rewrite offer_id by (unfold r1; cbn [r_slots]; unfold zlen in *; lia).
      apply offer_id; [lia|]. unfold r1; cbn [r_slots]. unfold zlen in *; lia. }
    exists r1. split; auto. cbn [r_slots r_log r_tree r1]. split.
    { split; auto. constructor; cbn; auto. rewrite Forall_forall in *. intros j I. apply I2 in I. destruct I as [->|I]; auto. }
    split; auto. split; auto. split; [intros j I; apply I2; auto|]. exists k. split; [apply I2; auto|apply eqb_refl].
  - destruct P as (j & I & Ej). exists r. split; auto. split; [split; auto|]. split; auto. split; auto. split; eauto.
Qed.

Lemma alg_remove_ok names r k : inv names r -> In k (r_tree r) ->
  exists r', alg_remove r k = Some r' /\ inv names r' /\ (forall j, In j (r_tree r') <-> In j (r_tree r) /\ j <> k) /\
    (forall j s, zget (r_slots r') j = Some s -> zget (r_slots r) j = Some s \/ s = mkSlot NO_NAME 0) /\
    users (r_slots r') k <= Z.max 0 (users (r_slots r) k - 1) + match r_slots r with s :: _ => if s_alg s =? k then 1 else 0 | [] => 0 end /\
    (users (r_slots r) k = 0 -> r_slots r' = r_slots r).
Proof.
  intros (W & So) I. pose proof W as [N T F S0 R O]. unfold alg_remove.
  assert (existsb (Z.eqb k) (r_tree r) = true) as -> by (apply existsb_exists; exists k; split; auto; apply Z.eqb_refl).
  assert (1 <= k < zlen names) as Bk by (rewrite Forall_forall in T; apply (T k I)).
  assert (forall r1, wf names r1 -> r_tree r1 = r_tree r ->
    inv names (mkReg (r_algs r1) (filter (fun j => negb (j =? k)) (r_tree r1)) (r_slots r1) (r_log r1)) /\
    forall j, In j (filter (fun j => negb (j =? k)) (r_tree r1)) <-> In j (r_tree r) /\ j <> k) as FIN.
  { intros r1 [N1 T1 F1 Q1 R1 O1] ET. rewrite ET. split.
    - split; [constructor; cbn; auto|cbn; apply filter_sorted; auto].
      rewrite Forall_forall in *. intros j Ij. apply filter_In in Ij. apply T. tauto.
    - intros j. rewrite filter_In. destruct (Z.eqb_spec j k); cbn; intuition; congruence. }
  destruct (r_slots r) as [|s0 l] eqn:ES; [unfold zlen in S0; cbn in S0; lia|]. cbn [tl].
  pose proof (first_user_ok k l 1) as FU. pose proof (users_nonneg l k) as UN. destruct (first_user k 1 l) as [i|].
  - destruct FU as (s & Bi & G & E).
    assert (zget (r_slots r) i = Some s) as Hs.
    { rewrite ES. rewrite <- G. replace i with ((i - 1) + 1) at 1 by lia. apply DomProofs.zget_cons. lia. }
    destruct (remove_alg_ok names r i s W Hs ltac:(lia)) as (r1 & Q1 & Q2 & Q3 & Q4 & Q5). rewrite Q1.
    destruct (FIN r1 Q2 Q3) as (FI & FT). eexists. split; [reflexivity|]. split; auto. split; auto. cbn [r_slots].
    split.
    { intros j t Ht. rewrite (zget_zset _ _ _ _ _ Q4), ES in Ht.
      destruct (Z.eqb_spec j i); [injection Ht as <-; auto|auto]. }
    pose proof (users_zset _ _ _ _ _ Hs Q4 k) as U. rewrite E, Z.eqb_refl in U. cbn [s_alg] in U. destruct (Z.eqb_spec 0 k); [lia|].
    rewrite ES in U. split.
    + destruct (s_alg s0 =? k); lia.
    + pose proof (users_nonneg (r_slots r1) k). lia.
  - destruct (FIN r W eq_refl) as (FI & FT). eexists. split; [reflexivity|]. split; auto. split; auto. cbn [r_slots].
    split; [rewrite ES; auto|]. split; [|rewrite ES; auto]. rewrite ES, users_cons.
    assert (users l k = 0). { destruct (Z.eq_dec (users l k) 0); auto. destruct (proj1 (users_pos l k) ltac:(lia)) as (t & It & Et). exfalso. eapply FU; eauto. }
    destruct (s_alg s0 =? k); lia.
Qed.

Lemma domain_add_ok names r : inv names r -> exists r', domain_add r = Some r' /\ inv names r' /\ r_tree r' = r_tree r /\ r_log r' = r_log r /\
  (r_slots r' = r_slots r \/ r_slots r' = r_slots r ++ [mkSlot [] 0]).
Proof.
  intros (W & So). pose proof W as [N T F S0 R O]. pose proof (wf_nonempty _ _ W) as NE. unfold domain_add.
  destruct (zlen (r_slots r) =? MAXDOM + 1).
  - exists r. split; auto. split; [split; auto|]. auto.
  - destruct (add_ref_ok names (mkReg (r_algs r) (r_tree r) (r_slots r ++ [mkSlot [] 0]) (r_log r)) 0 1 N ltac:(lia)) as (l & E & N1 & R1).
    cbn [r_algs r_tree r_slots r_log] in *. rewrite E. eexists. split; [reflexivity|]. cbn [r_algs r_tree r_slots r_log]. split; [|auto].
    assert (forall k, users (r_slots r ++ [mkSlot [] 0]) k = users (r_slots r) k + (if k =? 0 then 1 else 0)) as U.
    { intros k. rewrite users_app, users_cons. cbn [s_alg]. rewrite (Z.eqb_sym 0 k). change (users [] k) with 0. destruct (k =? 0); lia. }
    split; auto. constructor; cbn [r_algs r_tree r_slots r_log]; auto.
    + apply Forall_app. split; auto. constructor; [cbn; lia|constructor].
    + unfold zlen in *. rewrite app_length. lia.
    + intros k a Ha. destruct (R1 _ _ Ha) as (b & Hb & Eb). rewrite Eb, U, (R _ _ Hb). lia.
    + intros k Hk. rewrite U. destruct (Z.eqb_spec k 0); [lia|]. rewrite Z.add_0_r. auto.
Qed.

Lemma step_ok mpr names r o : inv names r -> names_ok names -> valid r o -> exists r', step mpr r o = Some r' /\ inv names r'.
Proof.
  intros I C V. destruct o as [k|k| |i nm]; cbn [step valid] in *.
  - destruct (alg_add_ok mpr names r k I C) as (r' & E & I' & _); eauto.
    destruct I as (W & _). rewrite (algs_len _ _ (w_names _ _ W)) in V. auto.
  - destruct (alg_remove_ok names r k I V) as (r' & E & I' & _). eauto.
  - destruct (domain_add_ok names r I) as (r' & E & I' & _). eauto.
  - destruct (zget_Some (r_slots r) i V) as (s & Hs). pose proof I as (W & So).
    destruct (apply_alg_ok names r i s nm W C So Hs) as [(_ & E)|(_ & r' & k & n & sl & E & W' & T' & _)]; [eauto|].
    exists r'. split; auto. split; auto. rewrite T'. auto.
Qed.
Lemma run_ok (G : reg -> op -> Prop) mpr names : (forall r o, G r o -> valid r o) -> names_ok names ->
  forall ops r, inv names r -> guarded G mpr r ops -> exists r', run mpr r ops = Some r' /\ inv names r'.
Proof.
  intros GV C. induction ops as [|o ops IH]; intros r I V; cbn [run].
  - eauto.
  - destruct V as (V & V2). destruct (step_ok mpr names r o I C (GV _ _ V)) as (r1 & E & I1). rewrite E in *. apply IH; auto.
Qed.

Lemma init_inv default names : inv (default :: names) (init default names).
Proof.
  split; [|constructor]. constructor; cbn [init r_algs r_tree r_slots r_log].
  - cbn [map a_name]. f_equal. rewrite map_map. cbn. apply map_id.
  - constructor.
  - constructor; [|constructor]. cbn. unfold zlen; cbn [length]. lia.
  - unfold zlen; cbn; lia.
  - intros k a H. rewrite users_cons. cbn [s_alg]. change (users [] k) with 0. destruct (Z.eqb_spec 0 k) as [<-|].
    + cbn in H. injection H as <-. reflexivity.
    + pose proof (zget_bound _ _ _ H). replace k with ((k - 1) + 1) in H by lia. rewrite DomProofs.zget_cons in H by lia.
      rewrite DomProofs.zget_map in H. destruct (zget names (k - 1)); [|discriminate]. injection H as <-. reflexivity.
  - intros k Hk. rewrite users_cons. cbn [s_alg]. destruct (Z.eqb_spec 0 k); [lia|]. change (users [] k) with 0. cbn. split; [split; [discriminate|lia]|].
    intros p c q Q. destruct p; discriminate.
Qed.

(** * Registered algorithms, names of the users *)
Lemma step_registered mpr names r o : inv names r -> names_ok names -> safe r o -> registered r ->
  forall r', step mpr r o = Some r' -> registered r'.
Proof.
  intros I C (V & Sf) Re r' E. destruct o as [k|k| |i nm]; cbn [step valid] in *.
  - destruct (alg_add_ok mpr names r k I C) as (r1 & E1 & I' & ES & _ & ET & _).
    { destruct I as (W & _). rewrite (algs_len _ _ (w_names _ _ W)) in V. auto. }
    rewrite E1 in E. injection E as <-. intros s Is. rewrite ES in Is. destruct (Re s Is); auto.
  - destruct (alg_remove_ok names r k I V) as (r1 & E1 & I' & ET & EQ & U & _). rewrite E1 in E. injection E as <-.
    destruct Sf as (U1 & NF). intros s Is. apply In_zget in Is. destruct Is as (j & Hj).
    destruct (EQ _ _ Hj) as [Q| ->]; [|left; reflexivity].
    destruct (Re s) as [Z0|It]; [apply In_zget; eauto|auto|]. right. apply ET. split; auto. intros Ek.
    assert (0 < users (r_slots r1) k) as P by (apply users_pos; exists s; split; auto; apply In_zget; eauto).
    destruct (r_slots r) as [|s0 l]; [change (users [] k) with 0 in U; lia|].
    destruct (Z.eqb_spec (s_alg s0) k); [congruence|lia].
  - destruct (domain_add_ok names r I) as (r1 & E1 & I' & ET & _ & ES). rewrite E1 in E. injection E as <-.
    intros s Is. rewrite ET. destruct ES as [ES|ES]; rewrite ES in Is; auto.
    apply in_app_iff in Is. destruct Is as [Is|[<-|[]]]; auto.
  - destruct (zget_Some (r_slots r) i V) as (s & Hs). pose proof I as (W & So).
    destruct (apply_alg_ok names r i s nm W C So Hs) as [(_ & E1)|(_ & r1 & k & n & sl & E1 & W' & T' & Ck & Ik & Hn & ES & EG & EL)];
      rewrite E1 in E; injection E as <-; auto.
    intros t It. apply In_zget in It. destruct It as (j & Hj). rewrite ES, EG in Hj. rewrite T'. destruct (Z.eqb_spec j i).
    + injection Hj as <-. exact Ik.
    + apply Re. apply In_zget. eauto.
Qed.

Definition slot_named (names : list bytes) (default : bytes) (s : slot) : Prop :=
  (s_alg s = 0 /\ (s_name s = [] \/ s_name s = NO_NAME \/ s_name s = default)) \/ (1 <= s_alg s /\ s_name s = nameof names (s_alg s)).
Definition named (names : list bytes) (default : bytes) (r : reg) : Prop := forall s, In s (r_slots r) -> slot_named names default s.

Lemma copy_short s : zlen s <= 15 -> copy_name s = s.
Proof. intros H. unfold copy_name. apply firstn_all2. unfold zlen, NAMELEN in *. lia. Qed.

Lemma step_named mpr default nms r o : let names := default :: nms in inv names r -> names_ok names -> Forall (fun n => zlen n <= 15) names -> valid r o -> named names default r ->
  forall r', step mpr r o = Some r' -> named names default r'.
Proof.
  intros names I C LN V Re r' E. destruct o as [k|k| |i nm]; cbn [step valid] in *.
  - destruct (alg_add_ok mpr names r k I C) as (r1 & E1 & I' & ES & _ & ET & _).
    { destruct I as (W & _). rewrite (algs_len _ _ (w_names _ _ W)) in V. auto. }
    rewrite E1 in E. injection E as <-. intros s Is. rewrite ES in Is. auto.
  - destruct (alg_remove_ok names r k I V) as (r1 & E1 & I' & ET & EQ & U & _). rewrite E1 in E. injection E as <-.
    intros s Is. apply In_zget in Is. destruct Is as (j & Hj).
    destruct (EQ _ _ Hj) as [Q| ->]; [|left; cbn; auto]. apply Re. apply In_zget. eauto.
  - destruct (domain_add_ok names r I) as (r1 & E1 & I' & ET & _ & ES). rewrite E1 in E. injection E as <-.
    intros s Is. destruct ES as [ES|ES]; rewrite ES in Is; auto.
    apply in_app_iff in Is. destruct Is as [Is|[<-|[]]]; auto. left; cbn; auto.
  - destruct (zget_Some (r_slots r) i V) as (s & Hs). pose proof I as (W & So).
    destruct (apply_alg_ok names r i s nm W C So Hs) as [(_ & E1)|(_ & r1 & k & n & sl & E1 & W' & T' & Ck & Ik & Hn & ES & EG & EL)];
      rewrite E1 in E; injection E as <-; auto.
    intros t It. apply In_zget in It. destruct It as (j & Hj). rewrite ES, EG in Hj. destruct (Z.eqb_spec j i).
    + injection Hj as <-. rewrite (name_of_names _ _ _ (w_names _ _ W)) in Hn.
      rewrite copy_short by (eapply (proj1 (Forall_zget _ _) LN); eauto). destruct Ik as [->|Ik].
      * left. cbn. split; auto. cbn in Hn. injection Hn as <-. auto.
      * right. cbn. pose proof (w_tree _ _ W) as T. rewrite Forall_forall in T. specialize (T k Ik). cbn in T. split; [lia|].
        unfold nameof. now rewrite Hn.
    + apply Re. apply In_zget. eauto.
Qed.

Lemma run_split mpr : forall ops r o r', run mpr r (ops ++ [o]) = Some r' -> exists r1, run mpr r ops = Some r1 /\ step mpr r1 o = Some r'.
Proof.
  induction ops as [|x ops IH]; intros r o r' H; cbn [run app] in *.
  - destruct (step mpr r o) eqn:E; [|discriminate]. exists r. split; auto. congruence.
  - destruct (step mpr r x); [|discriminate]. apply IH; auto.
Qed.

Lemma guarded_app G mpr : forall a r b, guarded G mpr r (a ++ b) -> guarded G mpr r a /\ forall r1, run mpr r a = Some r1 -> guarded G mpr r1 b.
Proof.
  induction a as [|x a IH]; intros r b H; cbn [app guarded run] in *.
  - split; auto. intros r1 [= <-]. auto.
  - destruct H as (H1 & H2). destruct (step mpr r x) as [r2|]; [|split; auto; discriminate].
    destruct (IH _ _ H2) as (P & Q). split; auto.
Qed.
Lemma guarded_imp (G G' : reg -> op -> Prop) mpr : (forall r o, G r o -> G' r o) -> forall ops r, guarded G mpr r ops -> guarded G' mpr r ops.
Proof.
  intros H. induction ops as [|o ops IH]; intros r; cbn; auto. intros (A & B). split; auto. destruct (step mpr r o); auto.
Qed.

Lemma run_good mpr default nms : let names := default :: nms in good_names default nms -> forall ops r,
  inv names r -> named names default r -> registered r -> guarded safe mpr r ops ->
  exists r', run mpr r ops = Some r' /\ inv names r' /\ named names default r' /\ registered r'.
Proof.
  intros names G. destruct G as (C0 & L0 & A0 & FN).
  assert (names_ok names) as C.
  { constructor; auto. rewrite Forall_forall in *. intros x Hx. apply (FN x Hx). }
  assert (Forall (fun n => zlen n <= 15) names) as LN.
  { constructor; auto. rewrite Forall_forall in *. intros x Hx. pose proof (FN x Hx). tauto. }
  induction ops as [|o ops IH]; intros r Iv Nm Re Gd; cbn [run].
  - eauto 6.
  - destruct Gd as (Sf & Gd). destruct (step_ok mpr names r o Iv C (proj1 Sf)) as (r1 & E & I1). rewrite E in *.
    apply IH; auto.
    + exact (step_named mpr default nms r o Iv C LN (proj1 Sf) Nm r1 E).
    + exact (step_registered mpr names r o Iv C Sf Re r1 E).
Qed.

Lemma init_named default nms : named (default :: nms) default (init default nms).
Proof. intros s [<-|[]]. left. cbn. auto. Qed.
Lemma init_registered default nms : registered (init default nms).
Proof. intros s [<-|[]]. left. reflexivity. Qed.

Lemma nameof_tl default nms k : 1 <= k < zlen (default :: nms) -> In (nameof (default :: nms) k) nms.
Proof.
  intros B. unfold nameof. replace k with ((k - 1) + 1) by lia. rewrite DomProofs.zget_cons by lia.
  rewrite DomProofs.zlen_cons in B. destruct (zget_Some nms (k - 1) ltac:(lia)) as (n & H). rewrite H.
  apply In_zget. eauto.
Qed.

(** the algorithm of a named slot is the one its name stands for *)
Lemma named_chosen default nms r s nm : good_names default nms -> inv (default :: nms) r -> registered r -> slot_named (default :: nms) default s ->
  (s_alg s = 0 \/ In (s_alg s) (r_tree r)) -> strcase_eqb (s_name s) nm = true -> chosen r nm (s_alg s).
Proof.
  intros G (W & So) Re Sn Ik E. destruct G as (C0 & L0 & A0 & FN). pose proof W as [N T F S0 R O]. destruct Sn as [(Z0 & Sn)|(P & Sn)].
  - right. split; auto. intros j m Ij Hm.
    assert (In m nms) as Im.
    { rewrite Forall_forall in T. specialize (T j Ij). cbn in T. rewrite (name_of_names _ _ _ N) in Hm.
      pose proof (nameof_tl default nms j T) as Q. unfold nameof in Q. now rewrite Hm in Q. }
    rewrite Forall_forall in FN. destruct (FN m Im) as (Cm & Lm & Dm & Am & Fm).
    assert (strcase_eqb nm m = strcase_eqb (s_name s) m) as Q1 by (apply eqb_trans; auto).
    assert (strcase_eqb nm ANY_NAME = strcase_eqb (s_name s) ANY_NAME) as Q2 by (apply eqb_trans; auto).
    rewrite eqb_sym, Q1, Q2. rewrite (eqb_sym (s_name s) m). destruct Sn as [-> |[-> | ->]].
    + split; [|reflexivity]. destruct m; [unfold zlen in Lm; cbn in Lm; lia|reflexivity].
    + split; [auto|reflexivity].
    + auto.
  - left. exists (s_name s). destruct Ik as [Q|Ik]; [lia|]. split; auto. split; auto. rewrite (name_of_names _ _ _ N), Sn.
    rewrite Forall_forall in T. specialize (T _ Ik). cbn in T. unfold nameof.
    destruct (zget_Some (default :: nms) (s_alg s) ltac:(lia)) as (n & ->). reflexivity.
Qed.

Lemma configure_chosen default nms r i nm r' : good_names default nms -> inv (default :: nms) r -> registered r -> named (default :: nms) default r ->
  0 <= i < zlen (r_slots r) -> apply_alg r i nm = Some r' ->
  exists s, zget (r_slots r') i = Some s /\ chosen r' nm (s_alg s).
Proof.
  intros G Iv Re Nm B E. pose proof Iv as (W & So).
  assert (names_ok (default :: nms)) as C.
  { destruct G as (C0 & L0 & A0 & FN). constructor; auto. rewrite Forall_forall in *. intros x Hx. apply (FN x Hx). }
  destruct (zget_Some (r_slots r) i B) as (s & Hs). assert (In s (r_slots r)) as Is by (apply In_zget; eauto).
  destruct (apply_alg_ok _ r i s nm W C So Hs) as [(Q & E1)|(_ & r1 & k & n & sl & E1 & W' & T' & Ck & Ik & Hn & ES & EG & EL)];
    rewrite E1 in E; injection E as <-.
  - exists s. split; auto. eapply named_chosen; eauto.
  - exists (mkSlot (copy_name n) k). rewrite ES, EG, Z.eqb_refl. split; auto. cbn.
    assert (forall j, name_of r j = name_of r1 j) as NE.
    { intros j. now rewrite (name_of_names _ _ _ (w_names _ _ W)), (name_of_names _ _ _ (w_names _ _ W')). }
    unfold chosen in *. rewrite T'. setoid_rewrite <- NE. exact Ck.
Qed.

Lemma add_ref_log r k d r' : add_ref r k d = Some r' -> r_log r' = r_log r /\ r_slots r' = r_slots r.
Proof.
  unfold add_ref. destruct (zget (r_algs r) k); [|discriminate]. destruct (zset _ _ _); [|discriminate]. intros [= <-]. auto.
Qed.
(** applying to a user of the default without result calls nothing *)
Lemma apply_quiet r i nm r' s s' : apply_alg r i nm = Some r' -> zget (r_slots r) i = Some s -> s_alg s = 0 ->
  zget (r_slots r') i = Some s' -> s_alg s' = 0 -> r_log r' = r_log r.
Proof.
  intros E Hs Z0 Hs' Z1. unfold apply_alg in E. rewrite Hs in E. destruct (strcase_eqb (s_name s) nm); [congruence|].
  rewrite Z0 in E. cbn [Z.eqb] in E.
  destruct (if strcase_eqb nm ANY_NAME then _ else _) as [nm'|]; [|discriminate].
  destruct (find_name r (r_tree r) nm') as [f|]; [|discriminate]. cbv zeta in E.
  set (k := match f with Some k => k | None => 0 end) in *.
  destruct (name_of r k) as [n|]; [|discriminate]. rewrite Hs, Z0 in E.
  destruct (add_ref r 0 (-1)) as [r2|] eqn:E2; [|discriminate].
  destruct (set_slot r2 i (mkSlot (copy_name n) k)) as [r3|] eqn:E3; [|discriminate].
  destruct (zget (r_algs r3) k) as [a|]; [|discriminate].
  unfold set_slot in E3. destruct (zset (r_slots r2) i (mkSlot (copy_name n) k)) as [sl|] eqn:ZS; [|discriminate]. injection E3 as <-.
  apply add_ref_log in E. destruct E as (EL & ES). apply add_ref_log in E2. destruct E2 as (EL2 & ES2).
  assert (k = 0) as K0.
  { assert (zget sl i = Some (mkSlot (copy_name n) k)) as Q by (rewrite (zget_zset _ _ _ _ _ ZS), Z.eqb_refl; auto).
    rewrite ES in Hs'. destruct (_ && _) in Hs'; cbn in Hs'; rewrite Q in Hs'; injection Hs' as <-; exact Z1. }
  rewrite EL, K0. cbn. rewrite andb_false_r. cbn. auto.
Qed.
