(** Proofs about the addresses of HELLOs. *)
From Verif Require Import Base BufLemmas NhdpModel NhdpSpec NhdpProofs HwModel HwSpec.

(** ** Own addresses *)
Definition isin (st : list ifaddr) (i : Z) (a : addr) : Prop := exists x, In x st /\ ia_if x = i /\ ia_addr x = a.
Definition islive (st : list ifaddr) (i : Z) (a : addr) : Prop := exists x, In x st /\ ia_if x = i /\ ia_addr x = a /\ ia_removed x = false.
Lemma is_ia_ok i a x : is_ia i a x = true <-> ia_if x = i /\ ia_addr x = a.
Proof. unfold is_ia. rewrite andb_true_iff, Z.eqb_eq, addr_eqb_eq. tauto. Qed.
Lemma existsb_isin st i a : existsb (is_ia i a) st = true <-> isin st i a.
Proof. rewrite existsb_exists. unfold isin. split; intros (x & H1 & H2); exists x; split; auto; now apply is_ia_ok. Qed.
Lemma add_isin i st b j a : isin (addr_add i st b) j a <-> isin st j a \/ j = i /\ a = b.
Proof.
  unfold addr_add. destruct (existsb (is_ia i b) st) eqn:E.
  - apply existsb_isin in E. split.
    + intros (x & H & <- & <-). left. apply in_upd in H. destruct H as (y & H & ->). exists y. split; auto. destruct (is_ia i b y); auto.
    + intros [(x & H & <- & <-)|[-> ->]].
      * exists (if is_ia i b x then set_removed false x else x). split; [apply in_upd; eauto|]. destruct (is_ia i b x); auto.
      * destruct E as (x & H & <- & <-). exists (if is_ia (ia_if x) (ia_addr x) x then set_removed false x else x).
        split; [apply in_upd; eauto|]. destruct (is_ia _ _ x); auto.
  - split.
    + intros (x & H & <- & <-). apply in_app_or in H. destruct H as [H|[<-|[]]]; [left; exists x; auto|right; auto].
    + intros [(x & H & <- & <-)|[-> ->]]; [exists x; split; [apply in_or_app|]; auto|].
      eexists. split; [apply in_or_app; right; left; reflexivity|auto].
Qed.
Lemma add_islive i st b j a : islive (addr_add i st b) j a <-> islive st j a \/ j = i /\ a = b.
Proof.
  unfold addr_add. destruct (existsb (is_ia i b) st) eqn:E.
  - apply existsb_isin in E. split.
    + intros (x & H & <- & <- & R). apply in_upd in H. destruct H as (y & H & ->). destruct (is_ia i b y) eqn:D.
      * right. apply is_ia_ok in D. cbn. tauto.
      * left. exists y. auto.
    + intros [(x & H & <- & <- & R)|[-> ->]].
      * exists (if is_ia i b x then set_removed false x else x). split; [apply in_upd; eauto|]. destruct (is_ia i b x); auto.
      * destruct E as (x & H & <- & <-). exists (set_removed false x). split; auto. apply in_upd. exists x. split; auto.
        replace (is_ia (ia_if x) (ia_addr x) x) with true; auto. symmetry. now apply is_ia_ok.
  - split.
    + intros (x & H & <- & <- & R). apply in_app_or in H. destruct H as [H|[<-|[]]]; [left; exists x; auto|right; auto].
    + intros [(x & H & <- & <- & R)|[-> ->]]; [exists x; split; [apply in_or_app|]; auto|].
      eexists. split; [apply in_or_app; right; left; reflexivity|auto].
Qed.
Lemma adds_isin i l j a : forall st, isin (fold_left (addr_add i) l st) j a <-> isin st j a \/ j = i /\ In a l.
Proof. induction l as [|b l IH]; intros st; cbn [fold_left In]; [tauto|]. rewrite IH, add_isin. intuition congruence. Qed.
Lemma adds_islive i l j a : forall st, islive (fold_left (addr_add i) l st) j a <-> islive st j a \/ j = i /\ In a l.
Proof. induction l as [|b l IH]; intros st; cbn [fold_left In]; [tauto|]. rewrite IH, add_islive. intuition congruence. Qed.
Lemma existsb_eqb (l : list addr) a : existsb (addr_eqb a) l = true <-> In a l.
Proof. rewrite existsb_exists. split; [intros (x & H & E); apply addr_eqb_eq in E; subst; auto|intros H; exists a; split; auto; apply addr_eqb_refl]. Qed.

Lemma ifstep_isin st o j a : isin (ifstep st o) j a <->
  match o with
  | IfEvent i l => i = j /\ In a l \/ isin st j a
  | IfTimeout i b => isin st j a /\ (i = j -> b = a -> islive st j a)
  | IfGone i => i <> j /\ isin st j a
  end.
Proof.
  destruct o as [i l|i b|i]; cbn [ifstep].
  - transitivity (isin (fold_left (addr_add i) l st) j a); [|rewrite adds_isin; intuition].
    split.
    + intros (x & H & <- & <-). apply in_upd in H. destruct H as (y & H & ->). exists y. split; auto. destruct (_ && _); auto.
    + intros (x & H & <- & <-). eexists. split; [apply in_upd; exists x; split; [exact H|reflexivity]|]. destruct (_ && _); auto.
  - split.
    + intros (x & H & <- & <-). apply in_del in H. destruct H as [H R]. split; [exists x; auto|]. intros -> ->. exists x. split; auto. split; auto. split; auto.
      apply andb_false_iff in R. destruct R as [R|R]; auto. exfalso. rewrite <- not_true_iff_false in R. apply R. now apply is_ia_ok.
    + intros ((x & H & <- & <-) & L). destruct (is_ia i b x) eqn:D.
      * apply is_ia_ok in D. destruct D as [D1 D2]. destruct (L (eq_sym D1) (eq_sym D2)) as (y & H1 & H2 & H3 & H4). exists y. split; [|auto].
        apply in_del. split; auto. rewrite H4. apply andb_false_r.
      * exists x. split; auto. apply in_del. split; auto. now rewrite D.
  - split.
    + intros (x & H & <- & <-). apply in_del in H. destruct H as [H R]. apply Z.eqb_neq in R. split; [auto|exists x; auto].
    + intros (N & (x & H & <- & <-)). exists x. split; auto. apply in_del. split; auto. apply Z.eqb_neq. auto.
Qed.
Lemma ifstep_islive st o j a : islive (ifstep st o) j a <->
  match o with
  | IfEvent i l => if i =? j then In a l else islive st j a
  | IfTimeout i b => islive st j a
  | IfGone i => i <> j /\ islive st j a
  end.
Proof.
  destruct o as [i l|i b|i]; cbn [ifstep].
  - split.
    + intros (x & H & <- & <- & R). apply in_upd in H. destruct H as (y & H & ->).
      destruct ((ia_if y =? i) && negb (existsb (addr_eqb (ia_addr y)) l)) eqn:D; [discriminate|].
      assert (L : islive (fold_left (addr_add i) l st) (ia_if y) (ia_addr y)) by (exists y; auto).
      apply adds_islive in L. destruct (Z.eqb_spec i (ia_if y)) as [E|E].
      * apply andb_false_iff in D. destruct D as [D|D]; [apply Z.eqb_neq in D; congruence|]. apply negb_false_iff, existsb_eqb in D. exact D.
      * destruct L as [L|[L _]]; [auto|congruence].
    + intros H. assert (L : islive (fold_left (addr_add i) l st) j a).
      { apply adds_islive. destruct (Z.eqb_spec i j); auto. }
      destruct L as (x & L1 & <- & <- & L4). exists x. split; auto. apply in_upd. exists x. split; auto.
      destruct ((ia_if x =? i) && negb (existsb (addr_eqb (ia_addr x)) l)) eqn:D; auto. exfalso.
      apply andb_true_iff in D. destruct D as [D1 D2]. apply Z.eqb_eq in D1. rewrite <- D1, Z.eqb_refl in H.
      apply existsb_eqb in H. rewrite H in D2. discriminate.
  - split.
    + intros (x & H & <- & <- & R). apply in_del in H. destruct H as [H _]. exists x. auto.
    + intros (x & H & <- & <- & R). exists x. split; auto. apply in_del. split; auto. rewrite R. apply andb_false_r.
  - split.
    + intros (x & H & <- & <- & R). apply in_del in H. destruct H as [H D]. apply Z.eqb_neq in D. split; [auto|exists x; auto].
    + intros (N & (x & H & <- & <- & R)). exists x. split; auto. apply in_del. split; auto. apply Z.eqb_neq. auto.
Qed.
Lemma ifrun_spec ops : forall i a, (islive (ifrun ops) i a <-> now ops i a) /\ (isin (ifrun ops) i a <-> known (rev ops) i a).
Proof.
  unfold ifrun, now. rewrite <- fold_left_rev_right. induction (rev ops) as [|o r IH]; intros i a; cbn [fold_right].
  - split; split; try (intros (x & [] & _)); intros [].
  - rewrite ifstep_islive, ifstep_isin. specialize (IH i a). destruct IH as [IH1 IH2].
    destruct o as [j l|j b|j]; cbn [current known]; split.
    + destruct (j =? i); tauto.
    + tauto.
    + tauto.
    + rewrite IH2. rewrite IH1. tauto.
    + tauto.
    + tauto.
Qed.

(** ** Address objects of a message *)
Definition lk (l : list haddr) (a : addr) : option haddr := find (fun x => addr_eqb (ha_addr x) a) l.
Definition ok_l (l : list haddr) : Prop := NoDup (map ha_addr l).
Lemma lk_in l a x : ok_l l -> (lk l a = Some x <-> In x l /\ ha_addr x = a).
Proof.
  intros N. unfold lk, ok_l in *. induction l as [|y l IH]; cbn [find].
  - split; [discriminate|intros [[] _]].
  - cbn [map] in N. inversion N as [|? ? N1 N2]; subst. destruct (addr_eqb (ha_addr y) a) eqn:E.
    + apply addr_eqb_eq in E. split.
      * intros H. injection H as <-. split; [now left|auto].
      * intros [[<-|H] D]; auto. exfalso. apply N1. rewrite E, <- D. now apply in_map.
    + apply addr_eqb_neq in E. rewrite IH by auto. split; [intros [H1 H2]; split; [now right|auto]|]. intros [[<-|H] D]; [congruence|auto].
Qed.
Lemma put_ok a f l : (forall x, ha_addr (f x) = ha_addr x) -> ok_l l -> ok_l (put a f l).
Proof.
  intros F N. unfold put, ok_l in *. destruct (existsb _ l) eqn:E.
  - rewrite map_upd; auto.
  - rewrite map_app. apply NoDup_snoc; auto. cbn. rewrite F. cbn. intros C. apply in_map_iff in C. destruct C as (x & <- & C).
    rewrite <- not_true_iff_false in E. apply E. apply existsb_exists. exists x. split; auto. apply addr_eqb_refl.
Qed.
Lemma lk_upd l a f b : (forall x, ha_addr (f x) = ha_addr x) ->
  lk (upd (fun x => addr_eqb (ha_addr x) a) f l) b = match lk l b with Some x => Some (if addr_eqb b a then f x else x) | None => None end.
Proof.
  intros F. unfold lk. induction l as [|x l IH]; cbn; auto. destruct (addr_eqb (ha_addr x) a) eqn:E.
  - rewrite F. destruct (addr_eqb (ha_addr x) b) eqn:D; auto. apply addr_eqb_eq in E, D. subst. now rewrite addr_eqb_refl.
  - destruct (addr_eqb (ha_addr x) b) eqn:D; auto. apply addr_eqb_eq in D. subst b. now rewrite E.
Qed.
Lemma lk_put l a f b : (forall x, ha_addr (f x) = ha_addr x) ->
  lk (put a f l) b = if addr_eqb b a then Some (f (match lk l a with Some x => x | None => blank a end)) else lk l b.
Proof.
  intros F. unfold put. destruct (existsb (fun x => addr_eqb (ha_addr x) a) l) eqn:E.
  - rewrite lk_upd by auto. destruct (addr_eqb b a) eqn:D.
    + apply addr_eqb_eq in D. subst b. destruct (lk l a) eqn:K; auto. exfalso. apply existsb_exists in E. destruct E as (x & H & D).
      unfold lk in K. pose proof (find_none _ _ K x H) as Q. cbn in Q. congruence.
    + destruct (lk l b); auto.
  - assert (K : lk l a = None).
    { unfold lk. destruct (find _ l) eqn:K; auto. apply find_some in K. exfalso. rewrite <- not_true_iff_false in E. apply E. apply existsb_exists. eauto. }
    rewrite K. unfold lk in *. clear E. induction l as [|x l IH]; cbn.
    + rewrite F. cbn. destruct (addr_eqb a b) eqn:D.
      * apply addr_eqb_eq in D. subst. now rewrite addr_eqb_refl.
      * destruct (addr_eqb b a) eqn:D2; auto. apply addr_eqb_eq in D2. subst. now rewrite addr_eqb_refl in D.
    + cbn in K. destruct (addr_eqb (ha_addr x) a) eqn:D; [discriminate|]. destruct (addr_eqb (ha_addr x) b) eqn:D2.
      * destruct (addr_eqb b a) eqn:D3; auto. apply addr_eqb_eq in D2, D3. subst. now rewrite addr_eqb_refl in D.
      * auto.
Qed.

(** the part with the own addresses *)
Definition loc (st : list ifaddr) (i : Z) (a : addr) : Z := if existsb (is_ia i a) st then THIS_IF else OTHER_IF.
Lemma locals_lk st i xs : forall l a, lk (fold_left (add_local st i) xs l) a =
  if existsb (fun x => addr_eqb (ia_addr x) a) xs then Some (put_local (loc st i a) (match lk l a with Some x => x | None => blank a end)) else lk l a.
Proof.
  induction xs as [|x xs IH]; intros l a; cbn [fold_left existsb]; auto. rewrite IH. unfold add_local at 1.
  assert (F : forall v y, ha_addr (put_local v y) = ha_addr y) by reflexivity.
  destruct (addr_eqb (ia_addr x) a) eqn:E; cbn [orb].
  - apply addr_eqb_eq in E. subst a. unfold add_local. rewrite !lk_put by (intros; apply F). rewrite addr_eqb_refl.
    fold (loc st i (ia_addr x)). destruct (existsb _ xs); auto.
  - assert (D : addr_eqb a (ia_addr x) = false) by (apply addr_eqb_neq; apply addr_eqb_neq in E; congruence).
    unfold add_local. rewrite !lk_put by (intros; apply F). rewrite D. auto.
Qed.
Lemma locals_ok st i xs : forall l, ok_l l -> ok_l (fold_left (add_local st i) xs l).
Proof. induction xs as [|x xs IH]; intros l N; cbn [fold_left]; auto. apply IH. unfold add_local. apply put_ok; auto. Qed.

(** the part with the addresses of neighbors *)
Lemma links_lk s i f xs : forall l l', NoDup (map na_addr xs) -> add_links s i f xs l = Ok l' ->
  forall a, lk l' a = match find (is_na a) xs with
                      | Some na => if a_af a =? f then match link_tlvs s i na with
                                                       | Ok t => Some (put_link (fst t) (snd t) (match lk l a with Some x => x | None => blank a end))
                                                       | Bad _ => None
                                                       end
                                   else lk l a
                      | None => lk l a
                      end.
Proof.
  induction xs as [|x xs IH]; intros l l' N H a; cbn [add_links find] in *.
  - injection H as <-. auto.
  - cbn [map] in N. inversion N as [|? ? N1 N2]; subst. assert (F : forall v w y, ha_addr (put_link v w y) = ha_addr y) by reflexivity.
    unfold is_na at 1. destruct (addr_eqb (na_addr x) a) eqn:E.
    + apply addr_eqb_eq in E. subst a.
      assert (Z0 : find (is_na (na_addr x)) xs = None).
      { destruct (find _ xs) eqn:K; auto. apply find_some in K. destruct K as [K1 K2]. apply addr_eqb_eq in K2. exfalso. apply N1. rewrite <- K2. now apply in_map. }
      destruct (a_af (na_addr x) =? f) eqn:AF.
      * destruct (link_tlvs s i x) as [t|]; [|discriminate]. cbn [rbind] in H. rewrite (IH _ _ N2 H). rewrite Z0, lk_put by (intros; apply F). now rewrite addr_eqb_refl.
      * rewrite (IH _ _ N2 H). now rewrite Z0.
    + assert (D : addr_eqb a (na_addr x) = false) by (apply addr_eqb_neq; apply addr_eqb_neq in E; congruence).
      destruct (a_af (na_addr x) =? f) eqn:AF; [|exact (IH _ _ N2 H a)].
      destruct (link_tlvs s i x) as [t|]; [|discriminate]. cbn [rbind] in H. rewrite (IH _ _ N2 H). rewrite !lk_put by (intros; apply F). rewrite D. auto.
Qed.
Lemma links_ok s i f xs : forall l l', ok_l l -> add_links s i f xs l = Ok l' -> ok_l l'.
Proof.
  induction xs as [|x xs IH]; intros l l' N H; cbn [add_links] in H; [injection H as <-; auto|].
  destruct (a_af (na_addr x) =? f); [|eauto]. destruct (link_tlvs s i x) as [t|]; [|discriminate]. cbn [rbind] in H.
  refine (IH _ _ _ H). apply put_ok; auto.
Qed.

Definition owns (st : list ifaddr) (a : addr) : bool := existsb (fun x => negb (ia_removed x) && addr_eqb (ia_addr x) a) st.
Lemma hello_lk st s i f l : NoDup (map na_addr (s_na s)) -> hello_addrs st s i f = Ok l -> ok_l l /\
  forall a, lk l a =
    if a_af a =? f then
      let base := if owns st a then Some (put_local (loc st i a) (blank a)) else None in
      match naddr_get s a with
      | Some na => match link_tlvs s i na with
                   | Ok t => Some (put_link (fst t) (snd t) (match base with Some x => x | None => blank a end))
                   | Bad _ => None
                   end
      | None => base
      end
    else None.
Proof.
  intros N H. unfold hello_addrs in H. split.
  - refine (links_ok _ _ _ _ _ _ _ H). apply locals_ok. constructor.
  - intros a. rewrite (links_lk _ _ _ _ _ _ N H). rewrite locals_lk. cbn [lk find].
    assert (X : existsb (fun x => addr_eqb (ia_addr x) a) (filter (fun x => negb (ia_removed x) && (a_af (ia_addr x) =? f)) st) = (a_af a =? f) && owns st a).
    { apply eq_true_iff_eq. rewrite existsb_exists, andb_true_iff. unfold owns. rewrite existsb_exists. split.
      - intros (x & H1 & H2). apply filter_In in H1. destruct H1 as [H1 H3]. apply andb_true_iff in H3. destruct H3 as [H3 H4].
        pose proof H2 as H5. apply addr_eqb_eq in H5. subst a. split; auto. exists x. split; auto. now rewrite H3, addr_eqb_refl.
      - intros (H1 & x & H2 & H3). apply andb_true_iff in H3. destruct H3 as [H3 H4]. exists x. split; auto. apply filter_In. split; auto.
        apply addr_eqb_eq in H4. rewrite H4, H3, H1. auto. }
    rewrite X. change (find (is_na a) (s_na s)) with (naddr_get s a). destruct (a_af a =? f); cbn [andb].
    + destruct (naddr_get s a) as [na|]; auto.
    + destruct (naddr_get s a) as [na|]; auto.
Qed.
Lemma owns_ok st a : owns st a = true <-> exists i, islive st i a.
Proof.
  unfold owns, islive. rewrite existsb_exists. split.
  - intros (x & H1 & H2). apply andb_true_iff in H2. destruct H2 as [H2 H3]. apply negb_true_iff in H2. apply addr_eqb_eq in H3. eauto 8.
  - intros (i & x & H1 & H2 & H3 & H4). exists x. split; auto. rewrite H4, H3, addr_eqb_refl. auto.
Qed.

(** in a consistent database the writer meets no dangling pointer *)
Lemma find_nodup {A} (g : A -> Z) l x : NoDup (map g l) -> In x l -> find (fun y => g y =? g x) l = Some x.
Proof.
  induction l as [|y l IH]; cbn; [tauto|]. intros N [<-|H]; inversion N as [|? ? N1 N2]; subst.
  - now rewrite Z.eqb_refl.
  - destruct (Z.eqb_spec (g y) (g x)) as [E|E]; auto. exfalso. apply N1. rewrite E. now apply in_map.
Qed.
Lemma get_n_in s i n : consistent s -> In n (s_n s) -> n_id n = i -> get_n s i = Ok n.
Proof. intros C H <-. unfold get_n. change (is_n (n_id n)) with (fun y => n_id y =? n_id n). rewrite (find_nodup n_id); auto. apply (co_n s C). Qed.
Lemma get_l_in s i l : consistent s -> In l (s_l s) -> l_id l = i -> get_l s i = Ok l.
Proof. intros C H <-. unfold get_l. change (is_l (l_id l)) with (fun y => l_id y =? l_id l). rewrite (find_nodup l_id); auto. apply (co_l s C). Qed.
Lemma laddr_get_in s i a la : consistent s -> (laddr_get s i a = Some la <-> In la (s_la s) /\ la_if la = i /\ la_addr la = a).
Proof.
  intros C. unfold laddr_get. destruct (co_laddr s C) as [N _]. induction (s_la s) as [|y l IH]; cbn [find].
  - split; [discriminate|intros ([] & _)].
  - cbn [map] in N. inversion N as [|? ? N1 N2]; subst. destruct (is_la i a y) eqn:E.
    + unfold is_la in E. apply andb_true_iff in E. destruct E as [E1 E2]. apply Z.eqb_eq in E1. apply addr_eqb_eq in E2. split.
      * intros H. injection H as <-. split; [now left|auto].
      * intros ([<-|H] & D1 & D2); auto. exfalso. apply N1. apply in_map_iff. exists la. split; auto. congruence.
    + rewrite IH by auto. split; [intros (H1 & H2); split; [now right|auto]|]. intros ([<-|H] & D1 & D2); [|auto].
      unfold is_la in E. rewrite D1, D2, Z.eqb_refl, addr_eqb_refl in E. discriminate.
Qed.
Lemma naddr_get_in s a na : consistent s -> (naddr_get s a = Some na <-> In na (s_na s) /\ na_addr na = a).
Proof.
  intros C. unfold naddr_get. destruct (co_naddr s C) as [N _]. induction (s_na s) as [|y l IH]; cbn [find].
  - split; [discriminate|intros ([] & _)].
  - cbn [map] in N. inversion N as [|? ? N1 N2]; subst. destruct (is_na a y) eqn:E.
    + unfold is_na in E. apply addr_eqb_eq in E. split.
      * intros H. injection H as <-. split; [now left|auto].
      * intros ([<-|H] & D); auto. exfalso. apply N1. rewrite E, <- D. now apply in_map.
    + rewrite IH by auto. split; [intros (H1 & H2); split; [now right|auto]|]. intros ([<-|H] & D); [|auto].
      unfold is_na in E. rewrite D, addr_eqb_refl in E. discriminate.
Qed.
Lemma tlvs_ok s i na : consistent s -> In na (s_na s) -> exists n st ot, In n (s_n s) /\ n_id n = na_n na /\ link_tlvs s i na = Ok (st, Some ot) /\
  (forall v, st = Some v <-> na_lost na = None /\ exists l, link_at s i (na_addr na) l /\ l_status l = v /\ v <> PENDING) /\
  ot = (if negb (active (na_lost na)) && (n_sym n >? 0) && negb (match st with Some v => v =? SYMMETRIC | None => false end) then 1 else 0).
Proof.
  intros C H. destruct (co_naddr s C) as [_ CN]. pose proof (CN na H) as CI. apply in_map_iff in CI. destruct CI as (n & En & Hn).
  unfold link_tlvs. destruct (active (na_lost na)) eqn:A.
  - cbn [rbind]. rewrite (get_n_in s _ n C Hn En). cbn [rbind]. exists n, None. eexists. split; auto. split; auto. split; [reflexivity|]. split; auto.
    intros v. split; [discriminate|]. intros [D _]. rewrite D in A. discriminate.
  - assert (A' : na_lost na = None) by (destruct (na_lost na); [discriminate|auto]). destruct (laddr_get s i (na_addr na)) as [la|] eqn:G.
    + apply laddr_get_in in G; auto. destruct G as (G1 & G2 & G3). destruct (co_laddr s C) as [_ CL]. destruct (CL la G1) as (l & L1 & L2 & L3).
      rewrite (get_l_in s _ l C L1 L2). cbn [rbind]. rewrite (get_n_in s _ n C Hn En). cbn [rbind]. exists n. eexists. eexists. split; auto. split; auto.
      split; [reflexivity|]. split; auto. intros v. rewrite L3, G2, Z.eqb_refl. cbn [andb].
      assert (U : forall l', link_at s i (na_addr na) l' -> l' = l).
      { intros l' (I1 & la' & I2 & I3 & I4 & I5). assert (Q : laddr_get s i (na_addr na) = Some la') by (apply laddr_get_in; auto).
        assert (Q2 : laddr_get s i (na_addr na) = Some la) by (apply laddr_get_in; auto). assert (la' = la) by congruence. subst la'.
        pose proof (get_l_in s _ l C L1 L2) as R1. pose proof (get_l_in s _ l' C I1 (eq_sym I5)) as R2. congruence. }
      destruct (Z.eqb_spec (l_status l) PENDING) as [E|E]; cbn [negb].
      * split; [discriminate|]. intros (_ & l' & I1 & I2 & I3). apply U in I1. subst. congruence.
      * split.
        -- intros Q. injection Q as <-. split; auto. exists l. split; auto. split; auto. exists la. auto.
        -- intros (_ & l' & I1 & I2 & I3). apply U in I1. subst. auto.
    + cbn [rbind]. rewrite (get_n_in s _ n C Hn En). cbn [rbind]. exists n, None. eexists. split; auto. split; auto. split; [reflexivity|]. split; auto.
      intros v. split; [discriminate|]. intros (_ & l' & (I1 & la' & I2 & I3 & I4 & I5) & _).
      assert (Q : laddr_get s i (na_addr na) = Some la') by (apply laddr_get_in; auto). congruence.
Qed.
Lemma links_total s i f : consistent s -> forall xs, incl xs (s_na s) -> forall l, exists l', add_links s i f xs l = Ok l'.
Proof.
  intros C. induction xs as [|x xs IH]; intros I0 l; cbn [add_links]; [eauto|].
  assert (I1 : incl xs (s_na s)) by (intros y Hy; apply I0; now right). destruct (a_af (na_addr x) =? f); [|apply IH; auto].
  destruct (tlvs_ok s i x C (I0 x (or_introl eq_refl))) as (n & st & ot & _ & _ & E & _). rewrite E. cbn [rbind]. apply IH; auto.
Qed.
Lemma hello_total st s i f : consistent s -> exists l, hello_addrs st s i f = Ok l.
Proof. intros C. unfold hello_addrs. apply links_total; auto. apply incl_refl. Qed.
