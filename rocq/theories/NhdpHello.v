(** Proofs about HELLO processing: no dangling pointer is followed and the
    references stay valid. *)
From Verif Require Import Base BufLemmas NhdpModel NhdpSpec NhdpProofs.

(** ** TLV values *)
Lemma land1 v : Z.land v 1 = v mod 2.
Proof. exact (Z.land_ones v 1 ltac:(lia)). Qed.
Lemma land1_cases v : Z.land v 1 = 0 \/ Z.land v 1 = 1.
Proof. rewrite land1. pose proof (Z.mod_pos_bound v 2). lia. Qed.
Lemma lif_local x : (ha_lif x =? THIS_IF) || (ha_lif x =? OTHER_IF) = true <-> local x.
Proof.
  unfold ha_lif, local. destruct (ha_local x) as [v|].
  - split; eauto. intros _. unfold THIS_IF, OTHER_IF. destruct (land1_cases v) as [-> | ->]; reflexivity.
  - split; [discriminate|intros (v & H); discriminate].
Qed.
Lemma lif_this x : (ha_lif x =? THIS_IF) = true <-> this_if x.
Proof.
  unfold ha_lif, this_if. destruct (ha_local x) as [v|].
  - rewrite Z.eqb_eq, land1, Zmod_even. unfold THIS_IF.
    split; [intros H; exists v; split; auto; destruct (Z.even v); auto; discriminate|intros (w & E & H); injection E as <-; now rewrite H].
  - split; [discriminate|intros (v & H & _); discriminate].
Qed.
Lemma this_local x : this_if x -> local x.
Proof. intros (v & H & _). exists v. auto. Qed.

(** ** What the first pass found out *)
(** the candidate kept in [_current] for a set of known objects *)
Definition found (P : Z -> Prop) (o : option Z) (conf : bool) : Prop :=
  match o with
  | Some i => conf = false /\ P i /\ forall j, P j -> j = i
  | None => if conf then exists i j, P i /\ P j /\ i <> j else forall i, ~ P i
  end.
Definition add_found (k : Z) (o : option Z) (conf : bool) : option Z * bool :=
  if conf then (o, conf) else match o with None => (Some k, false) | Some i => if i =? k then (o, conf) else (None, true) end.
Lemma found_ext P Q o c : (forall i, P i <-> Q i) -> found P o c -> found Q o c.
Proof.
  intros E. unfold found. destruct o as [i|].
  - intros (H1 & H2 & H3). split; auto. split; [now apply E|]. intros j Hj. apply H3. now apply E.
  - destruct c; [intros (i & j & H1 & H2 & H3); exists i, j; rewrite <- !E; auto|intros H i Hi; apply (H i); now apply E].
Qed.
Lemma found_add P k o c : found P o c -> found (fun i => P i \/ i = k) (fst (add_found k o c)) (snd (add_found k o c)).
Proof.
  unfold found, add_found. destruct c.
  - destruct o as [i|]; cbn; [intros (H & _); discriminate|]. intros (i & j & H1 & H2 & H3). exists i, j. auto.
  - destruct o as [i|]; cbn.
    + intros (_ & H1 & H2). destruct (i =? k) eqn:E; cbn.
      * apply Z.eqb_eq in E. subst. split; auto. split; auto. intros j [Hj | Hj]; auto.
      * apply Z.eqb_neq in E. exists i, k. auto.
    + intros H. split; auto. split; auto. intros j [Hj | Hj]; auto. exfalso. eapply H; eauto.
Qed.
Definition kn (s : db) (P : list haddr) (i : Z) : Prop := exists x, In x P /\ local x /\ In (ha_addr x, i) (NA s).
Definition kl (s : db) (f : Z) (P : list haddr) (i : Z) : Prop := exists x, In x P /\ this_if x /\ In ((f, ha_addr x), i) (LA s).
Lemma kn_known s h i : kn s (h_addrs h) i <-> known_neigh s h i.
Proof.
  unfold kn, known_neigh. split.
  - intros (x & H1 & H2 & H3). unfold NA in H3. apply in_map_iff in H3. destruct H3 as (na & E & H3). injection E as E1 E2. exists x, na. auto 10.
  - intros (x & na & H1 & H2 & H3 & H4 & H5). exists x. split; auto. split; auto. unfold NA. apply in_map_iff. exists na. split; congruence.
Qed.
Lemma kl_known s h i : kl s (h_if h) (h_addrs h) i <-> known_link s h i.
Proof.
  unfold kl, known_link. split.
  - intros (x & H1 & H2 & H3). unfold LA in H3. apply in_map_iff in H3. destruct H3 as (la & E & H3). injection E as E1 E2 E3. exists x, la. auto 10.
  - intros (x & la & H1 & H2 & H3 & H4 & H5 & H6). exists x. split; auto. split; auto. unfold LA. apply in_map_iff. exists la. split; congruence.
Qed.

(** the state after some addresses of the first pass *)
Record p1 (h : hello) (s0 s : db) (P : list haddr) : Prop := {
  p_same : same s0 s;
  p_env : s_env s = s_env s0; p_now : s_now s = s_now s0;
  p_if : c_if (s_cur s) = h_if h;
  p_n : found (kn s0 P) (c_n (s_cur s)) (c_nconf (s_cur s));
  p_l : found (kl s0 (h_if h) P) (c_l (s_cur s)) (c_lconf (s_cur s));
  p_t : c_thisif (s_cur s) = true <-> exists x, In x P /\ this_if x
}.
Lemma same_cur s c : same s (set_cur s c).
Proof. constructor; reflexivity. Qed.
Lemma NA_fun s a i j : wf s -> In (a, i) (NA s) -> In (a, j) (NA s) -> i = j.
Proof. intros W. apply NoDup_fst. apply W. Qed.
Lemma LA_fun s a i j : wf s -> In (a, i) (LA s) -> In (a, j) (LA s) -> i = j.
Proof. intros W. apply NoDup_fst. apply W. Qed.

Lemma pass1_addr_ok h s0 s P x : wf s0 -> p1 h s0 s P -> p1 h s0 (pass1_addr h s x) (P ++ [x]).
Proof.
  intros W [S En Nw If Fn Fl Ft]. unfold pass1_addr.
  set (c1 := {| c_if := c_if (s_cur s); c_n := c_n (s_cur s); c_l := c_l (s_cur s); c_nconf := c_nconf (s_cur s); c_lconf := c_lconf (s_cur s);
                c_heard := c_heard (s_cur s); c_lost := c_lost (s_cur s); c_thisif := c_thisif (s_cur s);
                c_origblk := c_origblk (s_cur s) || (h_hasorig h && addr_eqb (ha_addr x) (h_orig h)) |}).
  assert (Ws : wf s) by (eapply same_wf; eauto).
  (* neighbor *)
  assert (X : exists s1 c2, pass1_naddr s c1 x = (s1, c2) /\ same s0 s1 /\ s_env s1 = s_env s0 /\ s_now s1 = s_now s0 /\ c_if c2 = c_if c1 /\ c_l c2 = c_l c1 /\
                            c_lconf c2 = c_lconf c1 /\ c_thisif c2 = c_thisif c1 /\ found (kn s0 (P ++ [x])) (c_n c2) (c_nconf c2)).
  { unfold pass1_naddr. destruct ((ha_lif x =? THIS_IF) || (ha_lif x =? OTHER_IF)) eqn:L.
    - apply lif_local in L. destruct (naddr_get s (ha_addr x)) as [na|] eqn:G.
      + apply naddr_get_NA in G. destruct G as (G1 & G2 & G3). rewrite (e_NA _ _ S) in G3.
        eexists. eexists. split; [reflexivity|]. split; [eapply same_trans; [exact S|]; apply same_upd_n; intros; repeat split; reflexivity|].
        split; [auto|]. split; [auto|].
        assert (Y : found (kn s0 (P ++ [x])) (fst (add_found (na_n na) (c_n c1) (c_nconf c1))) (snd (add_found (na_n na) (c_n c1) (c_nconf c1)))).
        { eapply found_ext; [|apply found_add; exact Fn]. intros i. unfold kn. split.
          - intros [(y & H1 & H2 & H3) | ->]; [exists y; rewrite in_app_iff; auto|exists x; rewrite in_app_iff; cbn; auto].
          - intros (y & H1 & H2 & H3). apply in_app_iff in H1. destruct H1 as [H1 | [<- | []]]; [left; eauto|right]. exact (NA_fun s0 _ _ _ W H3 G3). }
        revert Y. unfold add_found. destruct (c_nconf c1) eqn:NC; [|destruct (c_n c1) as [i|] eqn:CN; [destruct (i =? na_n na)|]];
          intros Y; do 4 (split; [reflexivity|]); cbn [c_n c_nconf fst snd] in *; rewrite ?NC, ?CN; exact Y.
      + exists s, c1. split; auto. do 7 (split; [auto|]). eapply found_ext; [|exact Fn]. intros i. apply naddr_get_None in G. unfold kn. split.
        * intros (y & H1 & H2). exists y. rewrite in_app_iff. auto.
        * intros (y & H1 & H2 & H3). apply in_app_iff in H1. destruct H1 as [H1 | [<- | []]]; [eauto|].
          exfalso. apply G. rewrite (e_NA _ _ S). eapply in_fst; eauto.
    - exists s, c1. split; auto. do 7 (split; [auto|]). eapply found_ext; [|exact Fn]. intros i. unfold kn. split.
      + intros (y & H1 & H2). exists y. rewrite in_app_iff. auto.
      + intros (y & H1 & H2 & H3). apply in_app_iff in H1. destruct H1 as [H1 | [<- | []]]; [eauto|]. apply lif_local in H2. congruence. }
  destruct X as (s1 & c2 & -> & S1 & En1 & Nw1 & I1 & I2 & I3 & I4 & Fn1).
  assert (Ws1 : wf s1) by (eapply same_wf; eauto).
  (* link *)
  assert (X : exists s2 c3, pass1_laddr s1 c2 x = (s2, c3) /\ same s0 s2 /\ s_env s2 = s_env s0 /\ s_now s2 = s_now s0 /\ c_if c3 = c_if c1 /\ c_n c3 = c_n c2 /\
                            c_nconf c3 = c_nconf c2 /\ (c_thisif c3 = true <-> exists y, In y (P ++ [x]) /\ this_if y) /\
                            found (kl s0 (h_if h) (P ++ [x])) (c_l c3) (c_lconf c3)).
  { unfold pass1_laddr. destruct (ha_lif x =? THIS_IF) eqn:L.
    - apply lif_this in L. assert (TT : true = true <-> exists y, In y (P ++ [x]) /\ this_if y).
      { split; auto. intros _. exists x. rewrite in_app_iff. cbn. auto. }
      assert (CI : c_if c2 = h_if h) by (rewrite I1; exact If).
      destruct (laddr_get s1 (c_if c2) (ha_addr x)) as [la|] eqn:G.
      + rewrite CI in G. apply laddr_get_LA in G. destruct G as (G1 & G2 & G2' & G3). rewrite (e_LA _ _ S1) in G3.
        eexists. eexists. split; [reflexivity|]. split; [eapply same_trans; [exact S1|]; apply same_upd_l; intros; repeat split; reflexivity|].
        split; [auto|]. split; [auto|].
        assert (Y : found (kl s0 (h_if h) (P ++ [x])) (fst (add_found (la_l la) (c_l c2) (c_lconf c2))) (snd (add_found (la_l la) (c_l c2) (c_lconf c2)))).
        { rewrite I2, I3. eapply found_ext; [|apply found_add; exact Fl]. intros i. unfold kl. split.
          - intros [(y & H1 & H2 & H3) | ->]; [exists y; rewrite in_app_iff; auto|exists x; rewrite in_app_iff; cbn; auto].
          - intros (y & H1 & H2 & H3). apply in_app_iff in H1. destruct H1 as [H1 | [<- | []]]; [left; eauto|right]. exact (LA_fun s0 _ _ _ W H3 G3). }
        revert Y. unfold add_found. destruct (c_lconf c2) eqn:NC; [|destruct (c_l c2) as [i|] eqn:CN; [destruct (i =? la_l la)|]];
          intros Y; (split; [exact I1|]); do 2 (split; [reflexivity|]); (split; [exact TT|]); cbn [c_l c_lconf fst snd] in *; rewrite ?NC, ?CN; exact Y.
      + eexists. eexists. split; [reflexivity|]. do 3 (split; [auto|]). cbn. do 3 (split; [auto|]). split; [auto|].
        rewrite I2, I3. eapply found_ext; [|exact Fl]. intros i. rewrite CI in G. apply laddr_get_None in G. unfold kl. split.
        * intros (y & H1 & H2). exists y. rewrite in_app_iff. auto.
        * intros (y & H1 & H2 & H3). apply in_app_iff in H1. destruct H1 as [H1 | [<- | []]]; [eauto|].
          exfalso. apply G. rewrite (e_LA _ _ S1). eapply in_fst; eauto.
    - exists s1, c2. split; auto. do 6 (split; [auto|]). split.
      + rewrite I4. cbn. rewrite Ft. split; intros (y & H1 & H2); exists y; rewrite in_app_iff in *; cbn in *; auto.
        destruct H1 as [H1 | [<- | []]]; auto. apply lif_this in H2. congruence.
      + rewrite I2, I3. eapply found_ext; [|exact Fl]. intros i. unfold kl. split.
        * intros (y & H1 & H2). exists y. rewrite in_app_iff. auto.
        * intros (y & H1 & H2 & H3). apply in_app_iff in H1. destruct H1 as [H1 | [<- | []]]; [eauto|]. apply lif_this in H2. congruence. }
  destruct X as (s2 & c3 & -> & S2 & En2 & Nw2 & J1 & J2 & J3 & J4 & Fl2).
  constructor; cbn; auto.
  - eapply same_trans; [exact S2|apply same_cur].
  - rewrite J1. exact If.
  - rewrite J2, J3. exact Fn1.
Qed.
Lemma pass1_ok h l : forall s0 s P, wf s0 -> p1 h s0 s P ->
  exists Q, p1 h s0 (fst (pass1 h s l)) Q /\ (snd (pass1 h s l) = false -> Q = P ++ l).
Proof.
  induction l as [|x l IH]; intros s0 s P W H; cbn [pass1].
  - exists P. cbn. rewrite app_nil_r. auto.
  - destruct (ha_ok1 x).
    + destruct (IH s0 _ _ W (pass1_addr_ok h s0 s P x W H)) as (Q & H1 & H2). exists Q. rewrite <- app_assoc in H2. auto.
    + exists P. cbn. split; auto. discriminate.
Qed.

(** ** Dropped HELLOs *)
Definition alive (s : db) : Prop :=
  (forall i, c_l (s_cur s) = Some i -> In i (LK s)) /\ (forall i, c_n (s_cur s) = Some i -> In i (NI s)).
Lemma cleanup_ok s : wf s -> alive s -> exists s', cleanup_error s = Ok s' /\ wf s'.
Proof.
  intros W (Al & An). unfold cleanup_error.
  assert (X : exists s1, match c_l (s_cur s) with Some i => link_remove s i | None => Ok s end = Ok s1 /\ wf s1 /\ NI s1 = NI s).
  { destruct (c_l (s_cur s)) as [i|]; [|eauto]. destruct (link_remove_ok s i W) as (s1 & E & W1 & C & R); auto.
    exists s1. split; auto. split; auto. apply R. }
  destruct X as (s1 & -> & W1 & E1). cbn [rbind].
  assert (X : exists s2, match c_n (s_cur s) with Some i => neighbor_remove s1 i | None => Ok s1 end = Ok s2 /\ wf s2).
  { destruct (c_n (s_cur s)) as [i|]; [|eauto]. destruct (neighbor_remove_ok s1 i W1) as (s2 & E & W2 & C & R); [rewrite E1; auto|]. eauto. }
  destruct X as (s2 & -> & W2). cbn [rbind]. eexists. split; [reflexivity|]. eapply same_wf; [apply same_cur|auto].
Qed.
Lemma p1_alive h s0 s P : wf s0 -> p1 h s0 s P -> alive s.
Proof.
  intros W [S En Nw If Fn Fl Ft]. split; intros i E.
  - rewrite E in Fl. destruct Fl as (_ & (x & _ & _ & H) & _). apply (w_la2 s0 W) in H. destruct H as (n & H).
    rewrite LK_LI, (e_LI _ _ S). eapply in_fst; eauto.
  - rewrite E in Fn. destruct Fn as (_ & (x & _ & _ & H) & _). rewrite (e_NI _ _ S). eapply (w_na2 s0 W); eauto.
Qed.

(** ** Between the passes *)
(** link [L] on interface [f] belongs to neighbor [ln], neighbor [N] exists *)
Definition has (s : db) (L ln f N : Z) : Prop := In (L, (ln, f)) (LI s) /\ In N (NI s).
(** no address in [P] belongs to another neighbor, or the link is one of [N] *)
Definition calm (s : db) (ln N : Z) (P : addr -> Prop) : Prop := ln = N \/ forall a z, P a -> In (a, z) (NA s) -> z = N.

(** the two halves of [pass2_localif] *)
Definition li1 (s : db) (L : Z) (a : addr) (lif : Z) : res db :=
  (if lif =? THIS_IF then
       match laddr_get s (c_if (s_cur s)) a with
       | None => laddr_add s L a
       | Some la =>
         do l <- get_l s (la_l la);
         let s := upd_l s (la_l la) (l_set_pc (l_pc l - 1)) in
         do s <- (if la_l la =? L then Ok s
                  else do s <- laddr_move s L la;
                       if l_pc l - 1 =? 0 then link_remove s (la_l la) else Ok s);
         Ok (set_la s (upd (is_la (c_if (s_cur s)) a) (la_set_mbr false) (s_la s)))
       end
     else Ok s).
Definition li2 (s : db) (N : Z) (a : addr) : res db :=
  match naddr_get s a with
  | None => naddr_add s N a
  | Some na =>
    do n <- get_n s (na_n na);
    let s := upd_n s (na_n na) (n_set_pc (n_pc n - 1)) in
    do s <- (if na_n na =? N then Ok s
             else let s := naddr_move s N a in
                  if n_pc n - 1 =? 0 then neighbor_remove s (na_n na) else Ok s);
    let s := set_na s (upd (is_na a) (na_set_mbr false) (s_na s)) in
    Ok (naddr_not_lost s (is_na a))
  end.
Lemma localif_split s L N a lif : pass2_localif s L N a lif = (do s <- li1 s L a lif; li2 s N a).
Proof. reflexivity. Qed.
Lemma pass2_localif_ok s L ln N a lif : wf s -> has s L ln (c_if (s_cur s)) N -> calm s ln N (eq a) ->
  exists s', pass2_localif s L N a lif = Ok s' /\ wf s' /\ ctx s s' /\ has s' L ln (c_if (s_cur s)) N /\
    (forall b z, In (b, z) (NA s') -> In (b, z) (NA s) \/ z = N).
Proof.
  intros W (HL & HN) Q. rewrite localif_split.
  assert (X : exists s1, li1 s L a lif = Ok s1 /\ wf s1 /\ ctx s s1 /\ In (L, (ln, c_if (s_cur s))) (LI s1) /\ NI s1 = NI s /\ NA s1 = NA s).
  { unfold li1. destruct (lif =? THIS_IF); [|exists s; auto 10 using ctx_refl].
    destruct (laddr_get s (c_if (s_cur s)) a) as [la|] eqn:G.
    - apply laddr_get_LA in G. destruct G as (G1 & G2 & G3 & G4). destruct (w_la2 s W _ _ _ G4) as (m & Hm).
      destruct (link_full s _ _ _ W Hm) as (l & -> & Il & El & En & Ef & _). cbn [rbind].
      set (s1 := upd_l s (la_l la) (l_set_pc (l_pc l - 1))).
      assert (K1 : keep s s1) by (apply keep_upd_l; [auto|triv]).
      assert (X : exists s2, (if la_l la =? L then Ok s1 else do s0 <- laddr_move s1 L la; (if l_pc l - 1 =? 0 then link_remove s0 (la_l la) else Ok s0)) = Ok s2 /\
                             wf s2 /\ ctx s s2 /\ In (L, (ln, c_if (s_cur s))) (LI s2) /\ NI s2 = NI s /\ NA s2 = NA s).
      { destruct (la_l la =? L) eqn:E.
        - exists s1. split; auto. split; [apply K1|]. split; [apply K1|]. split; [rewrite (k_LI _ _ K1); auto|]. split; apply K1.
        - apply Z.eqb_neq in E. destruct (laddr_move_ok s1 L ln (c_if (s_cur s)) la) as (s2 & -> & W2 & C2 & E1 & E2 & E3 & E4 & E5 & E6);
            [apply K1|rewrite (k_LI _ _ K1); auto|exact G1|auto|]. cbn [rbind].
          assert (C : ctx s s2) by (eapply ctx_trans; [apply K1|auto]).
          destruct (l_pc l - 1 =? 0).
          + destruct (link_remove_ok s2 (la_l la) W2) as (s3 & -> & W3 & C3 & R1 & R2 & R3 & R4 & R5 & R6 & R7 & R8).
            { rewrite LK_LI, E3, (k_LI _ _ K1). eapply in_fst; eauto. }
            exists s3. split; auto. split; auto. split; [eapply ctx_trans; eauto|]. split.
            * rewrite R1. apply in_LI_del. cbn. rewrite E3, (k_LI _ _ K1). auto.
            * split; [rewrite R2, E1; apply K1|rewrite R5, E4; apply K1].
          + exists s2. split; auto. split; auto. split; auto. split; [rewrite E3, (k_LI _ _ K1); auto|].
            split; [rewrite E1; apply K1|rewrite E4; apply K1]. }
      destruct X as (s2 & -> & W2 & C2 & H2 & E2 & E2'). cbn [rbind].
      assert (K3 : keep s2 (set_la s2 (upd (is_la (c_if (s_cur s2)) a) (la_set_mbr false) (s_la s2)))) by (apply keep_upd_la; [auto|triv]).
      eexists. split; [reflexivity|]. split; [apply K3|]. split; [eapply ctx_trans; [exact C2|apply K3]|].
      split; [rewrite (k_LI _ _ K3); auto|]. split; [rewrite (k_NI _ _ K3); auto|rewrite (k_NA _ _ K3); auto].
    - destruct (laddr_add_ok s L ln _ a W HL G) as (s1 & -> & W1 & C1 & E1 & E2 & E3 & E4 & _). exists s1.
      split; auto. split; auto. split; auto. rewrite E3. split; [exact HL|split; [exact E1|exact E4]]. }
  destruct X as (s1 & -> & W1 & C1 & L1 & E1 & E1'). cbn [rbind].
  assert (N1 : In N (NI s1)) by (rewrite E1; auto). unfold li2.
  destruct (naddr_get s1 a) as [na|] eqn:G.
  - apply naddr_get_NA in G. destruct G as (G1 & G2 & G3). destruct (get_n_ok s1 (na_n na)) as (n & -> & In_ & Dn); [eapply (w_na2 s1 W1); eauto|]. cbn [rbind].
    set (s2 := upd_n s1 (na_n na) (n_set_pc (n_pc n - 1))).
    assert (K2 : keep s1 s2) by (apply keep_upd_n; [auto|triv]).
    assert (X : exists s3, (if na_n na =? N then Ok s2 else if n_pc n - 1 =? 0 then neighbor_remove (naddr_move s2 N a) (na_n na) else Ok (naddr_move s2 N a)) = Ok s3 /\
                           wf s3 /\ ctx s s3 /\ has s3 L ln (c_if (s_cur s)) N /\ (forall b z, In (b, z) (NA s3) -> In (b, z) (NA s) \/ z = N)).
    { destruct (na_n na =? N) eqn:E.
      - exists s2. split; auto. split; [apply K2|]. split; [eapply ctx_trans; [exact C1|apply K2]|]. split.
        + split; [rewrite (k_LI _ _ K2); auto|rewrite (k_NI _ _ K2); auto].
        + rewrite (k_NA _ _ K2), E1'. auto.
      - apply Z.eqb_neq in E. destruct (naddr_move_ok s2 N a) as (W3 & C3 & F1 & F2 & F3 & F4 & F5 & F6); [apply K2|rewrite (k_NI _ _ K2); auto|].
        set (s4 := naddr_move s2 N a) in *.
        assert (Z4 : forall b z, In (b, z) (NA s4) -> In (b, z) (NA s) \/ z = N).
        { intros b z H. rewrite F6 in H. apply in_map_iff in H. destruct H as ([b' z'] & Eq & H). cbn [fst] in Eq.
          destruct (addr_eqb b' a); injection Eq as <- <-; auto. left. rewrite <- E1', <- (k_NA _ _ K2). auto. }
        assert (H4 : has s4 L ln (c_if (s_cur s)) N) by (split; [rewrite F3, (k_LI _ _ K2); auto|rewrite F1, (k_NI _ _ K2); auto]).
        assert (C4 : ctx s s4) by (eapply ctx_trans; [exact C1|]; eapply ctx_trans; [apply K2|exact C3]).
        destruct (n_pc n - 1 =? 0); [|exists s4; auto].
        destruct Q as [Q | Q]; [|exfalso; apply E; apply (Q a); auto; rewrite <- E1'; auto].
        destruct (neighbor_remove_ok s4 (na_n na) W3) as (s5 & -> & W5 & C5 & R1 & R2 & R3 & R4 & R5 & R6 & R7).
        { rewrite F1, (k_NI _ _ K2). eapply (w_na2 s1 W1); eauto. }
        exists s5. split; auto. split; auto. split; [eapply ctx_trans; eauto|]. split.
        + destruct H4 as (H4 & H4'). split.
          * rewrite R1. apply in_del. split; auto. cbn. apply Z.eqb_neq. congruence.
          * rewrite R2. apply in_del. split; auto. apply Z.eqb_neq. congruence.
        + intros b z H. rewrite R4 in H. apply in_del in H. apply Z4. tauto. }
    destruct X as (s3 & -> & W3 & C3 & (L3 & N3) & Z3). cbn [rbind]. eexists. split; [reflexivity|].
    assert (K4 : keep s3 (set_na s3 (upd (is_na a) (na_set_mbr false) (s_na s3)))) by (apply keep_upd_na; [auto|triv]).
    set (s4 := set_na s3 (upd (is_na a) (na_set_mbr false) (s_na s3))) in *.
    assert (K5 : keep s4 (naddr_not_lost s4 (is_na a))) by (unfold naddr_not_lost; apply keep_upd_na; [apply K4|triv]).
    assert (K : keep s3 (naddr_not_lost s4 (is_na a))) by (eapply keep_trans; eauto).
    split; [apply K|]. split; [eapply ctx_trans; [exact C3|apply K]|]. split; [split; [rewrite (k_LI _ _ K); auto|rewrite (k_NI _ _ K); auto]|].
    rewrite (k_NA _ _ K). auto.
  - destruct (naddr_add_ok s1 N a W1 N1 G) as (s2 & -> & W2 & C2 & F1 & F2 & F3 & F4 & _). exists s2. split; auto. split; auto.
    split; [eapply ctx_trans; eauto|]. split; [split; [rewrite F3; auto|rewrite F1; auto]|].
    rewrite F4, E1'. intros b z H. apply in_app_iff in H. destruct H as [H | [H | []]]; auto. injection H as <- <-. auto.
Qed.
Lemma handle_originator_ok s a : wf s -> (forall i, c_n (s_cur s) = Some i -> In i (NI s)) -> exists s', handle_originator s a = Ok s' /\
  wf s' /\ NI s' = NI s /\ LI s' = LI s /\ NA s' = NA s /\ LA s' = LA s /\ s_env s' = s_env s /\ s_ifs s' = s_ifs s /\ s_now s' = s_now s /\
  (s_cur s' = s_cur s \/ c_n (s_cur s) = None /\ c_nconf (s_cur s) = false /\ exists i, In i (NI s) /\ s_cur s' = with_n (s_cur s) (Some i)).
Proof.
  intros W A. unfold handle_originator. destruct (neigh_by_orig s a) as [n|] eqn:G; [|exists s; auto 15].
  apply neigh_by_orig_spec in G. destruct G as (G1 & G2 & G3). assert (I : In (n_id n) (NI s)) by (now apply in_map).
  destruct (dual_is (c_n (s_cur s)) (n_id n)); [exists s; auto 15|].
  assert (X : exists s', (if n_pc n >? 0 then Ok s else set_originator s (n_id n) UNSPEC) = Ok s' /\ keep s s').
  { destruct (n_pc n >? 0); [eauto using keep_refl|]. now apply set_originator_ok. }
  destruct X as (s1 & E1 & K1). assert (Y : exists s', (if n_pc n >? 0 then Ok s else set_originator s (n_id n) UNSPEC) = Ok s' /\
     wf s' /\ NI s' = NI s /\ LI s' = LI s /\ NA s' = NA s /\ LA s' = LA s /\ s_env s' = s_env s /\ s_ifs s' = s_ifs s /\ s_now s' = s_now s /\ s_cur s' = s_cur s).
  { exists s1. destruct K1 as [? [? ? ? ?] ? ? ? ?]. auto 15. }
  destruct Y as (s2 & E2 & Y). destruct (c_n (s_cur s)) as [i|] eqn:CN.
  - exists s2. rewrite E2. tauto.
  - destruct (c_nconf (s_cur s)) eqn:NC; [exists s2; rewrite E2; tauto|].
    eexists. split; [reflexivity|]. split; [eapply same_wf; [apply same_cur|auto]|]. do 7 (split; [reflexivity|]). right. eauto.
Qed.
Lemma sameN_keep s s' : wf s' -> ctx s s' -> sameN s s' -> keep s s'.
Proof. intros W C []. constructor; auto. Qed.
Lemma sameL_keep s s' : wf s' -> ctx s s' -> sameL s s' -> keep s s'.
Proof. intros W C []. constructor; auto. Qed.
Lemma dualstack_ok h s L N : wf s -> In L (LK s) -> In N (NI s) -> exists s', dualstack h s L N = Ok s' /\ keep s s'.
Proof.
  intros W HL HN. unfold dualstack. destruct (h_hasorig h); [|eauto using keep_refl].
  destruct (negb (a_af (h_v4 h) =? 0)).
  - assert (X : exists s1, match neigh_by_orig s (h_v4 h) with Some n2 => n_connect s N (n_id n2) | None => Ok s end = Ok s1 /\ keep s s1).
    { destruct (neigh_by_orig s (h_v4 h)) as [n2|] eqn:G; [|eauto using keep_refl]. apply neigh_by_orig_spec in G. destruct G as (G & _).
      apply (in_map n_id) in G. destruct (n_connect_ok s N (n_id n2) W HN G) as (s1 & E & W1 & C1 & S1). eauto using sameN_keep. }
    destruct X as (s1 & -> & K1). cbn [rbind].
    destruct (link_by_orig s1 (c_if (s_cur s1)) (h_v4 h)) as [l2|] eqn:G; [|eauto].
    apply find_some in G. destruct G as (G & _). apply (in_map l_id) in G.
    destruct (l_connect_ok s1 L (l_id l2)) as (s2 & E & W2 & C2 & S2); [apply K1|rewrite (keep_LK _ _ K1); auto|auto|].
    exists s2. split; auto. eapply keep_trans; [exact K1|]. eapply sameL_keep; eauto.
  - destruct (a_af (h_orig h) =? AF_INET6); [|eauto using keep_refl].
    destruct (n_disconnect_ok s N W HN) as (s1 & -> & W1 & C1 & S1 & _). cbn [rbind]. apply sameN_keep in S1; auto.
    destruct (l_disconnect_ok s1 L W1) as (s2 & E & W2 & C2 & S2 & _); [rewrite (keep_LK _ _ S1); auto|].
    exists s2. split; auto. eapply keep_trans; [exact S1|]. eapply sameL_keep; eauto.
Qed.
(** a state ready for the second pass *)
Record p2 (h : hello) (s : db) (L ln N : Z) (rest : list haddr) : Prop := {
  r_wf : wf s; r_has : has s L ln (h_if h) N; r_if : c_if (s_cur s) = h_if h;
  r_n : c_n (s_cur s) = Some N; r_l : c_l (s_cur s) = Some L; r_f : In (h_if h) (s_ifs s);
  r_calm : calm s ln N (fun a => exists x, In x rest /\ local x /\ ha_addr x = a)
}.
Lemma pass1_end_ok h s0 s : wf s0 -> p1 h s0 s (h_addrs h) -> In (h_if h) (s_ifs s0) ->
  one (kn s0 (h_addrs h)) \/ none (kl s0 (h_if h) (h_addrs h)) \/ ~ one (kl s0 (h_if h) (h_addrs h)) ->
  exists s' L ln N, pass1_end h s = Ok (s', L, N) /\ p2 h s' L ln N (h_addrs h).
Proof.
  intros W P IF M. pose proof (p1_alive _ _ _ _ W P) as (Al & An). destruct P as [S En Nw If Fn Fl Ft]. unfold pass1_end.
  assert (Ws : wf s) by (eapply same_wf; eauto).
  (* originator *)
  assert (X : exists s1, (if h_hasorig h && negb (c_origblk (s_cur s)) && negb (a_af (h_orig h) =? 0) then handle_originator s (h_orig h) else Ok s) = Ok s1 /\
     wf s1 /\ NI s1 = NI s /\ LI s1 = LI s /\ NA s1 = NA s /\ LA s1 = LA s /\ s_env s1 = s_env s /\ s_ifs s1 = s_ifs s /\ s_now s1 = s_now s /\
     (s_cur s1 = s_cur s \/ c_n (s_cur s) = None /\ c_nconf (s_cur s) = false /\ exists i, In i (NI s) /\ s_cur s1 = with_n (s_cur s) (Some i))).
  { destruct (h_hasorig h && _ && _); [|exists s; auto 15]. apply handle_originator_ok; auto. }
  destruct X as (s1 & -> & W1 & A1 & A2 & A3 & A4 & A5 & A6 & A7 & A8). cbn [rbind].
  assert (CL : c_l (s_cur s1) = c_l (s_cur s)) by (destruct A8 as [-> | (_ & _ & i & _ & ->)]; auto).
  assert (CI : c_if (s_cur s1) = h_if h) by (destruct A8 as [-> | (_ & _ & i & _ & ->)]; auto).
  assert (CT : c_thisif (s_cur s1) = c_thisif (s_cur s)) by (destruct A8 as [-> | (_ & _ & i & _ & ->)]; auto).
  (* neighbor *)
  assert (X : exists s2 N, pass1_neigh h s1 = Ok (s2, N) /\ wf s2 /\ In N (NI s2) /\ c_n (s_cur s2) = Some N /\ c_l (s_cur s2) = c_l (s_cur s) /\
     c_if (s_cur s2) = h_if h /\ c_thisif (s_cur s2) = c_thisif (s_cur s) /\ LI s2 = LI s /\ NA s2 = NA s /\ LA s2 = LA s /\ s_ifs s2 = s_ifs s /\
     (one (kn s0 (h_addrs h)) -> forall i, kn s0 (h_addrs h) i -> i = N)).
  { unfold pass1_neigh. destruct (c_n (s_cur s1)) as [i|] eqn:CN.
    - assert (Ii : In i (NI s1)).
      { rewrite A1. destruct A8 as [E | (_ & _ & j & Hj & E)]; [apply An; congruence|rewrite E in CN; cbn in CN; congruence]. }
      destruct (get_n_ok s1 i Ii) as (n & -> & _). cbn [rbind].
      match goal with |- exists s2 N, Ok (?x, _) = _ /\ _ => assert (K : keep s1 x) by (apply keep_upd_na; [auto|triv]); set (s2 := x) in * end.
      exists s2, i. split; auto. split; [apply K|]. split; [rewrite (k_NI _ _ K); auto|].
      split; [exact CN|]. split; [exact CL|]. split; [exact CI|]. split; [exact CT|].
      split; [rewrite (k_LI _ _ K); auto|]. split; [rewrite (k_NA _ _ K); auto|]. split; [rewrite (k_LA _ _ K); auto|]. split; [exact A6|].
      intros O j Hj. destruct A8 as [E | (E1 & E2 & k & Hk & E)].
      + rewrite E in CN. rewrite CN in Fn. destruct Fn as (_ & _ & U). auto.
      + rewrite E1, E2 in Fn. exfalso. eapply Fn; eauto.
    - destruct (neighbor_add_ok s1 W1) as (W2 & C2 & E2 & E3 & E4 & E5 & E6 & E7 & E8).
      destruct (neighbor_add s1) as [s2 i] eqn:E. cbn [fst snd] in *. subst i. eexists. eexists. split; [reflexivity|].
      split; [eapply same_wf; [apply same_cur|auto]|]. change (NI (set_cur ?x ?y)) with (NI x). rewrite E3.
      split; [apply in_app_iff; cbn; auto|]. destruct C2 as [C2 C3 C4 C5]. cbn. rewrite C2. split; auto. split; auto. split; auto. split; auto.
      split; [rewrite <- A2, <- E5; reflexivity|]. split; [rewrite <- A3, <- E6; reflexivity|]. split; [rewrite <- A4, <- E7; reflexivity|].
      split; [congruence|]. intros O j Hj. exfalso. destruct A8 as [Ec | (_ & _ & k & _ & Ec)]; rewrite Ec in CN; [|discriminate].
      rewrite CN in Fn. destruct (c_nconf (s_cur s)); [|eapply Fn; eauto]. destruct Fn as (p & q & H1 & H2 & H3). apply H3. now apply O. }
  destruct X as (s2 & N & -> & W2 & HN & B1 & B2 & B3 & B4 & B5 & B6 & B7 & B8 & B9). cbn [rbind fst snd].
  (* link *)
  assert (X : exists s3 L ln, pass1_link s2 N = Ok (s3, L) /\ wf s3 /\ has s3 L ln (h_if h) N /\ c_n (s_cur s3) = Some N /\ c_l (s_cur s3) = Some L /\
     c_if (s_cur s3) = h_if h /\ c_thisif (s_cur s3) = c_thisif (s_cur s) /\ NA s3 = NA s /\ s_ifs s3 = s_ifs s /\
     (c_l (s_cur s) = None -> ln = N)).
  { unfold pass1_link. destruct (c_l (s_cur s2)) as [i|] eqn:CL2.
    - assert (Li : exists ln, In (i, (ln, h_if h)) (LI s2)).
      { rewrite <- B2 in Fl. destruct Fl as (_ & (x & _ & _ & H) & _). apply (w_la2 s0 W) in H. rewrite B5, (e_LI _ _ S). auto. }
      destruct Li as (ln & Li). destruct (link_full s2 _ _ _ W2 Li) as (l & -> & _). cbn [rbind].
      match goal with |- exists s3 L ln, Ok (?x, _) = _ /\ _ => assert (K : keep s2 x) by (apply keep_upd_la; [auto|triv]); set (s3 := x) in * end.
      exists s3, i, ln. split; auto. split; [apply K|]. split; [split; [rewrite (k_LI _ _ K); auto|rewrite (k_NI _ _ K); auto]|].
      split; [exact B1|]. split; [exact CL2|]. split; [exact B3|]. split; [exact B4|]. split; [rewrite (k_NA _ _ K); auto|]. split; [exact B8|].
      intros C. congruence.
    - rewrite B3. destruct (link_add_ok s2 N (h_if h) W2 HN) as (s3 & -> & W3 & C3 & E1 & E2 & E3 & E4 & E5 & E6).
      { rewrite B8, (e_ifs _ _ S). auto. }
      cbn [rbind fst snd]. eexists. exists (s_next s2), N. split; [reflexivity|].
      split; [eapply same_wf; [apply same_cur|auto]|]. split; [split; [change (LI (set_cur ?x ?y)) with (LI x); rewrite E3; apply in_app_iff; cbn; auto|change (NI (set_cur ?x ?y)) with (NI x); rewrite E1; auto]|].
      cbn. split; auto. split; auto. split; auto. split; auto. split; [rewrite <- B6, <- E4; reflexivity|]. split; [|auto].
      rewrite (x_ifs _ _ C3). auto. }
  destruct X as (s3 & L & ln & -> & W3 & H3 & D1 & D2 & D3 & D4 & D5 & D6 & D7). cbn [rbind fst snd].
  set (s4 := upd_l s3 L _).
  assert (K4 : keep s3 s4) by (apply keep_upd_l; [auto|triv]).
  assert (H4 : has s4 L ln (h_if h) N) by (destruct H3; split; [rewrite (k_LI _ _ K4); auto|rewrite (k_NI _ _ K4); auto]).
  assert (CT4 : c_thisif (s_cur s4) = c_thisif (s_cur s)) by exact D4.
  assert (Q4 : calm s4 ln N (fun a => exists x, In x (h_addrs h) /\ local x /\ ha_addr x = a)).
  { destruct M as [M | M].
    - right. intros a z (x & X1 & X2 & <-) Hz. rewrite (k_NA _ _ K4), D5, (e_NA _ _ S) in Hz. apply B9; auto. exists x. auto.
    - left. apply D7. destruct (c_l (s_cur s)) as [i|] eqn:E; auto. exfalso. destruct Fl as (_ & F1 & F2). destruct M as [M | M].
      + eapply M; eauto.
      + apply M. intros p q Hp Hq. rewrite (F2 p), (F2 q); auto. }
  assert (X : exists s5, (if c_thisif (s_cur s4) then Ok s4 else pass2_localif s4 L N (h_src h) THIS_IF) = Ok s5 /\
     wf s5 /\ ctx s4 s5 /\ has s5 L ln (h_if h) N /\ (forall b z, In (b, z) (NA s5) -> In (b, z) (NA s4) \/ z = N)).
  { destruct (c_thisif (s_cur s4)) eqn:T.
    - exists s4. split; auto. split; [apply K4|]. split; [apply ctx_refl|]. auto.
    - assert (c_if (s_cur s4) = h_if h) as CI4 by exact D3. rewrite <- CI4. apply pass2_localif_ok; [apply K4|rewrite CI4; auto|].
      left. apply D7. destruct (c_l (s_cur s)) as [i|] eqn:E; auto. exfalso. destruct Fl as (_ & (x & F1 & F2 & _) & _).
      assert (c_thisif (s_cur s) = true) by (apply Ft; eauto). congruence. }
  destruct X as (s5 & -> & W5 & C5 & (L5 & N5) & Z5). cbn [rbind].
  destruct (link_full s5 _ _ _ W5 L5) as (l5 & -> & _). cbn [rbind].
  destruct (dualstack_ok h s5 L N W5) as (s6 & -> & K6); [eapply LI_LK; eauto|auto|]. cbn [rbind].
  exists s6, L, ln, N. split; auto. pose proof (ctx_trans _ _ _ C5 (k_ctx _ _ K6)) as [X1 X2 X3 X4].
  constructor; rewrite ?X1; auto.
  - apply K6.
  - split; [rewrite (k_LI _ _ K6); auto|rewrite (k_NI _ _ K6); auto].
  - rewrite X3. change (s_ifs s4) with (s_ifs s3). rewrite D6, (e_ifs _ _ S). auto.
  - destruct Q4 as [Q | Q]; [left; auto|right]. intros a z Ha Hz. rewrite (k_NA _ _ K6) in Hz. apply Z5 in Hz. destruct Hz; eauto.
Qed.

(** ** Second pass *)
Lemma pass2_2hop_ok h s L N x : wf s -> In L (LK s) -> In N (NI s) -> exists s', pass2_2hop h s L N x = Ok s' /\ keep s s'.
Proof.
  intros W HL HN. unfold pass2_2hop. destruct (get_l_ok s L HL) as (l & El & _). destruct (get_n_ok s N HN) as (n & En & _).
  destruct (_ || _); [|eauto using keep_refl]. destruct (e_own _ _ _); [rewrite El, En; cbn [rbind]; eauto using keep_refl|].
  destruct (e_any _ _); [eauto using keep_refl|]. rewrite El. cbn [rbind]. destruct (_ || _).
  - assert (X : exists s1, (if existsb (is_h L (ha_addr x)) (s_h s) then Ok s else l2hop_add s L (ha_addr x)) = Ok s1 /\ keep s s1).
    { destruct (existsb (is_h L (ha_addr x)) (s_h s)) eqn:E; [eauto using keep_refl|].
      destruct (l2hop_add_ok s L (ha_addr x) W HL) as (s1 & E1 & W1 & C1 & F1 & F2 & F3 & F4 & F5 & _).
      - intros C. unfold H2 in C. apply in_map_iff in C. destruct C as (y & Ey & C). injection Ey as Y1 Y2.
        assert (existsb (is_h L (ha_addr x)) (s_h s) = true); [|congruence]. apply existsb_exists. exists y. split; auto.
        unfold is_h. rewrite Y1, Y2, Z.eqb_refl, addr_eqb_refl. auto.
      - exists s1. split; auto. constructor; auto. }
    destruct X as (s1 & -> & K1). cbn [rbind]. eexists. split; [reflexivity|]. eapply keep_trans; [exact K1|]. apply keep_upd_h; [apply K1|triv].
  - destruct (l2hops_remove_ok s (is_h L (ha_addr x)) W) as (s1 & -> & K & _). eauto.
Qed.
Lemma keep_p2 h s s' L ln N r : keep s s' -> p2 h s L ln N r -> p2 h s' L ln N r.
Proof.
  intros K [W (H1 & H2) R1 R2 R3 R4 R5]. pose proof (k_ctx _ _ K) as [X1 X2 X3 X4]. constructor; rewrite ?X1, ?X3; auto.
  - apply K.
  - split; [rewrite (k_LI _ _ K); auto|rewrite (k_NI _ _ K); auto].
  - unfold calm in *. rewrite (k_NA _ _ K). auto.
Qed.
Lemma pass2_addr_ok h L ln N s x r : p2 h s L ln N (x :: r) -> exists s', pass2_addr h L N s x = Ok s' /\ p2 h s' L ln N r.
Proof.
  intros [W H R1 R2 R3 R4 R5]. unfold pass2_addr.
  assert (X : exists s1, (if (ha_lif x =? THIS_IF) || (ha_lif x =? OTHER_IF) then pass2_localif s L N (ha_addr x) (ha_lif x) else Ok s) = Ok s1 /\ p2 h s1 L ln N r).
  { assert (R6 : calm s ln N (fun a => exists y, In y r /\ local y /\ ha_addr y = a)).
    { destruct R5 as [Q | Q]; [left; auto|right]. intros a z (y & Y1 & Y2 & Y3) Hz. apply (Q a z); auto. exists y. cbn. auto. }
    destruct (_ || _) eqn:E; [|exists s; split; auto; constructor; auto].
    apply lif_local in E. destruct (pass2_localif_ok s L ln N (ha_addr x) (ha_lif x)) as (s1 & E1 & W1 & C1 & H1 & Z1); auto.
    - rewrite R1. auto.
    - destruct R5 as [Q | Q]; [left; auto|right]. intros a z <- Hz. apply (Q (ha_addr x)); auto. exists x. cbn. auto.
    - exists s1. split; auto. destruct C1 as [X1 X2 X3 X4]. constructor; rewrite ?X1, ?X3; auto.
      + rewrite R1 in H1. auto.
      + destruct R6 as [Q | Q]; [left; auto|right]. intros a z Ha Hz. apply Z1 in Hz. destruct Hz; eauto. }
  destruct X as (s1 & -> & P1). cbn [rbind]. pose proof P1 as [W1 (L1 & N1) _ _ _ _ _].
  destruct (pass2_2hop_ok h s1 L N x W1) as (s2 & E & K2); [eapply LI_LK; eauto|auto|].
  exists s2. split; auto. eapply keep_p2; eauto.
Qed.
Lemma pass2_ok h L ln N l : forall s, p2 h s L ln N l -> exists s' d, pass2 h L N s l = Ok (s', d) /\ p2 h s' L ln N [].
Proof.
  induction l as [|x l IH]; intros s P; cbn [pass2].
  - eauto.
  - destruct (ha_ok2 x).
    + destruct (pass2_addr_ok h L ln N s x l P) as (s1 & -> & P1). cbn [rbind]. eauto.
    + exists s, true. split; auto. destruct P as [W H R1 R2 R3 R4 R5]. constructor; auto. destruct R5 as [Q | Q]; [left; auto|right].
      intros a z (y & [] & _).
Qed.
Lemma pass2_leftover_ok h s L ln N : p2 h s L ln N [] -> exists s', pass2_leftover h s L N = Ok s' /\ p2 h s' L ln N [].
Proof.
  intros P. pose proof P as [W (HL & HN) R1 R2 R3 R4 R5]. unfold pass2_leftover.
  destruct (link_full s _ _ _ W HL) as (l & -> & _). cbn [rbind].
  set (s1 := set_la s _). assert (W1 : wf s1) by now apply wf_del_la.
  change (get_n s1 N) with (get_n s N). destruct (get_n_ok s N HN) as (n & -> & _). cbn [rbind].
  rewrite chk_if_ok by (cbn; rewrite R1; auto). cbn [rbind].
  match goal with |- exists s', l2hops_remove ?y ?q = _ /\ _ => set (s2 := y); set (p := q) end.
  assert (K2 : keep s1 s2) by (unfold s2, naddr_set_lost; apply keep_upd_na; [auto|triv]).
  destruct (l2hops_remove_ok s2 p) as (s3 & E3 & K3 & _); [apply K2|]. exists s3. split; [exact E3|].
  eapply keep_p2; [exact K3|]. eapply keep_p2; [exact K2|]. constructor; auto. split; auto.
Qed.
Lemma pass2_end_ok h s L ln N : p2 h s L ln N [] -> exists s', pass2_end h s L N = Ok s' /\ wf s'.
Proof.
  intros P. unfold pass2_end. destruct (pass2_leftover_ok h s L ln N P) as (s1 & -> & P1). cbn [rbind]. clear P.
  assert (X : exists s2, pass2_symtime h s1 L = Ok s2 /\ keep s1 s2).
  { destruct P1 as [W (HL & HN) R1 R2 R3 R4 R5]. apply LI_LK in HL. unfold pass2_symtime. destruct (c_heard (s_cur s1)).
    - assert (K1 : keep s1 (upd_l s1 L (l_set_sym (timer s1 (h_vtime h))))) by (apply keep_upd_l; [auto|triv]).
      destruct (update_status_ok (upd_l s1 L (l_set_sym (timer s1 (h_vtime h)))) L) as (s2 & E & K2); [apply K1|rewrite (keep_LK _ _ K1); auto|].
      exists s2. split; auto. eapply keep_trans; eauto.
    - destruct (c_lost (s_cur s1)); [|eauto using keep_refl]. destruct (get_l_ok s1 L HL) as (l & -> & _). cbn [rbind].
      destruct (active (l_sym l)); [|eauto using keep_refl]. set (s2 := upd_l s1 L (l_set_sym None)).
      assert (K2 : keep s1 s2) by (apply keep_upd_l; [auto|triv]). rewrite <- (keep_LK _ _ K2) in HL.
      destruct (get_l_ok s2 L HL) as (l' & -> & Il' & _). cbn [rbind]. destruct (calc_status_ok s2 l' (k_wf _ _ K2) Il') as (st & ->). cbn [rbind].
      eexists. split; [reflexivity|]. destruct (st =? HEARD); auto. eapply keep_trans; [exact K2|]. apply keep_upd_l; [apply K2|triv]. }
  destruct X as (s2 & -> & K2). cbn [rbind]. assert (P2 : p2 h s2 L ln N []) by (eapply keep_p2; eauto). clear K2 P1.
  assert (X : exists s3, pass2_times h s2 L = Ok s3 /\ keep s2 s3).
  { destruct P2 as [W (HL & HN) R1 R2 R3 R4 R5]. apply LI_LK in HL. unfold pass2_times. destruct (get_l_ok s2 L HL) as (l & -> & _). cbn [rbind].
    match goal with |- context [upd_l s2 L (l_set_heard ?t)] => assert (K1 : keep s2 (upd_l s2 L (l_set_heard t))) by (apply keep_upd_l; [auto|triv]) end.
    match goal with |- exists s3, (if ?b then _ else _) = _ /\ _ => destruct b end; eexists; (split; [reflexivity|]); auto.
    eapply keep_trans; [exact K1|]. apply keep_upd_l; [apply K1|triv]. }
  destruct X as (s3 & -> & K3). cbn [rbind]. assert (P3 : p2 h s3 L ln N []) by (eapply keep_p2; eauto). clear K3 P2.
  destruct P3 as [W3 (L3 & N3) _ _ _ _ _]. destruct (set_originator_ok s3 N (h_orig h) W3 N3) as (s4 & -> & K4). cbn [rbind].
  destruct (update_status_ok s4 L) as (s5 & E & K5); [apply K4|rewrite (keep_LK _ _ K4); eapply LI_LK; eauto|].
  exists s5. split; auto. apply K5.
Qed.

(** ** The whole HELLO *)
Lemma mergeable_k s0 s h : same s s0 -> mergeable s h -> one (kn s0 (h_addrs h)) \/ none (kl s0 (h_if h) (h_addrs h)) \/ ~ one (kl s0 (h_if h) (h_addrs h)).
Proof.
  intros S M. assert (A : forall i, kn s0 (h_addrs h) i <-> known_neigh s h i).
  { intros i. rewrite <- kn_known. unfold kn. now rewrite (e_NA _ _ S). }
  assert (B : forall i, kl s0 (h_if h) (h_addrs h) i <-> known_link s h i).
  { intros i. rewrite <- kl_known. unfold kl. now rewrite (e_LA _ _ S). }
  destruct M as [M | [M | M]].
  - left. intros i j Hi Hj. apply M; now apply A.
  - right. left. intros i Hi. apply (M i). now apply B.
  - right. right. intros O. apply M. intros i j Hi Hj. apply O; now apply B.
Qed.
Definition start (s : db) (h : hello) : db :=
  let c := {| c_if := h_if h; c_n := None; c_l := None; c_nconf := false; c_lconf := false;
              c_heard := false; c_lost := false; c_thisif := false; c_origblk := false |} in
  let s := set_cur s c in
  let s := set_n s (map (n_set_pc 0) (s_n s)) in
  set_l s (upd (fun l => l_if l =? h_if h) (l_set_pc 0) (s_l s)).
Lemma start_same s h : same s (start s h).
Proof.
  constructor; try reflexivity; unfold start, NI, NO, ND, LI, LD; cbn [set_l set_n s_n s_l set_cur]; rewrite ?map_map; try reflexivity; apply map_upd; reflexivity.
Qed.
Lemma start_p1 s h : p1 h (start s h) (start s h) [].
Proof.
  constructor; try reflexivity; cbn.
  - apply same_refl.
  - intros i (x & [] & _).
  - intros i (x & [] & _).
  - split; [discriminate|intros (x & [] & _)].
Qed.
Lemma process_hello_ok s h : wf s -> safe_event s (EvHello h) -> exists s', process_hello s h = Ok s' /\ wf s'.
Proof.
  intros W G. unfold process_hello. cbn [safe_event] in G. destruct (h_ok h); cbn [negb].
  - destruct (h_active h && existsb (Z.eqb (h_if h)) (s_ifs s)) eqn:A; cbn [negb].
    + fold (start s h). apply andb_true_iff in A. destruct A as [_ A].
      assert (IF : In (h_if h) (s_ifs s)) by (apply existsb_exists in A; destruct A as (i & A1 & A2); apply Z.eqb_eq in A2; congruence).
      pose proof (start_same s h) as SS. assert (W0 : wf (start s h)) by (eapply same_wf; eauto).
      destruct (pass1_ok h (h_addrs h) (start s h) (start s h) [] W0 (start_p1 s h)) as (Q & P1 & PQ).
      change (let '(s2, dropped) := pass1 h (start s h) (h_addrs h) in
        if dropped then cleanup_error s2 else do r <- pass1_end h s2; let '(s3, L, N) := r in do r0 <- pass2 h L N s3 (h_addrs h); let '(s4, dropped0) := r0 in
          if dropped0 then cleanup_error s4 else pass2_end h s4 L N) with (let '(s2, dropped) := pass1 h (start s h) (h_addrs h) in
        if dropped then cleanup_error s2 else do r <- pass1_end h s2; let '(s3, L, N) := r in do r0 <- pass2 h L N s3 (h_addrs h); let '(s4, dropped0) := r0 in
          if dropped0 then cleanup_error s4 else pass2_end h s4 L N).
      destruct (pass1 h (start s h) (h_addrs h)) as [s1 d1]. cbn [fst snd] in *. destruct d1.
      * apply cleanup_ok; [eapply same_wf; [apply P1|auto]|eapply p1_alive; eauto].
      * rewrite PQ in P1 by auto. cbn [app] in P1. destruct (pass1_end_ok h (start s h) s1 W0 P1) as (s2 & L & ln & N & -> & P2); [exact IF|eapply mergeable_k; eauto|].
        cbn [rbind]. destruct (pass2_ok h L ln N (h_addrs h) s2 P2) as (s3 & d & -> & P3). cbn [rbind]. destruct d.
        -- pose proof P3 as [W3 (L3 & N3) R1 R2 R3 R4 R5]. apply cleanup_ok; auto. split; intros i E.
           ++ rewrite R3 in E. injection E as <-. eapply LI_LK; eauto.
           ++ rewrite R2 in E. injection E as <-. auto.
        -- eapply pass2_end_ok; eauto.
    + apply cleanup_ok; [eapply same_wf; [apply same_cur|auto]|]. split; discriminate.
  - apply cleanup_ok; auto.
Qed.

(** ** All events *)
Lemma wf_set_now s t : wf s -> wf (set_now s t).
Proof. apply same_wf. constructor; reflexivity. Qed.
Lemma wf_set_env s t : wf s -> wf (set_env s t).
Proof. apply same_wf. constructor; reflexivity. Qed.
Lemma find_LK s i l : find (is_l i) (s_l s) = Some l -> In i (LK s).
Proof. intros H. apply find_some in H. destruct H as [H1 H2]. apply Z.eqb_eq in H2. subst. now apply in_map. Qed.
Lemma step_ok s e : wf s -> safe_event s e -> exists s', step s e = Ok s' /\ wf s'.
Proof.
  intros W G. destruct e; cbn [step].
  - eexists. split; [reflexivity|]. destruct (_ <=? _); auto using wf_set_now.
  - eexists. split; [reflexivity|]. now apply wf_set_env.
  - now apply process_hello_ok.
  - destruct (find (is_l i) (s_l s)) as [l|] eqn:F; [|eauto]. destruct (due s (l_sym l)); [|eauto]. apply find_LK in F.
    assert (K : keep s (upd_l s i (l_set_sym None))) by (apply keep_upd_l; [auto|triv]).
    destruct (update_status_ok (upd_l s i (l_set_sym None)) i) as (s' & E & K'); [apply K|rewrite (keep_LK _ _ K); auto|]. exists s'. split; auto. apply K'.
  - destruct (find (is_l i) (s_l s)) as [l|] eqn:F; [|eauto]. destruct (due s (l_heard l)); [|eauto]. apply find_LK in F.
    assert (K : keep s (upd_l s i (l_set_heard None))) by (apply keep_upd_l; [auto|triv]).
    destruct (update_status_ok (upd_l s i (l_set_heard None)) i) as (s' & E & K'); [apply K|rewrite (keep_LK _ _ K); auto|]. exists s'. split; auto. apply K'.
  - destruct (find (is_l i) (s_l s)) as [l|] eqn:F; [|eauto]. destruct (due s (l_vt l)); [|eauto]. apply find_LK in F.
    assert (K : keep s (upd_l s i (l_set_vt None))) by (apply keep_upd_l; [auto|triv]).
    destruct (cb_link_vtime_ok (upd_l s i (l_set_vt None)) i) as (s' & E & W' & _); [apply K|rewrite (keep_LK _ _ K); auto|]. eauto.
  - destruct (naddr_get s a) as [x|]; [|eauto]. destruct (due s (na_lost x)); [|eauto]. eexists. split; [reflexivity|]. now apply wf_del_na.
  - destruct (find (is_h i a) (s_h s)) as [x|]; [|eauto]. destruct (due s (h2_vt x)); [|eauto].
    destruct (l2hops_remove_ok s (is_h i a) W) as (s' & E & K & _). exists s'. split; auto. apply K.
  - destruct (find (is_l i) (s_l s)) as [l|] eqn:F; [|eauto]. apply find_LK in F. destruct (update_status_ok s i W F) as (s' & E & K). exists s'. split; auto. apply K.
  - destruct (existsb (Z.eqb i) (s_ifs s)); [|eauto]. destruct (unsym_links_ok (if_links s i) s W) as (s' & E & K).
    + intros j Hj. unfold if_links in Hj. apply in_map_iff in Hj. destruct Hj as (l & <- & Hj). apply filter_In in Hj. apply in_map. tauto.
    + exists s'. split; auto. apply K.
  - destruct G.
Qed.
Lemma run_ok l : forall s, wf s -> guarded safe_event s l -> exists s', run s l = Ok s' /\ wf s'.
Proof.
  induction l as [|e l IH]; intros s W G; cbn [run]; [eauto|]. destruct G as (G1 & G2).
  destruct (step_ok s e W G1) as (s1 & E & W1). rewrite E. cbn [rbind]. apply IH; auto.
Qed.
Lemma wf_init ifs e : wf (init ifs e).
Proof. constructor; unfold mutual; cbn; try constructor; tauto || (intros; contradiction). Qed.

Lemma in_map_inj {A} (g : A -> Z) l x y : NoDup (map g l) -> In x l -> In y l -> g x = g y -> x = y.
Proof.
  induction l as [|z l IH]; cbn; [tauto|]. intros N [-> | Hx] [-> | Hy] E; inversion N as [|? ? N1 N2]; subst; auto.
  - exfalso. apply N1. rewrite E. now apply in_map.
  - exfalso. apply N1. rewrite <- E. now apply in_map.
Qed.
Lemma wf_consistent s : wf s -> consistent s.
Proof.
  intros W. constructor.
  - apply W.
  - apply W.
  - intros l H. apply in_LI in H. eapply (w_li s W); eauto.
  - split; [pose proof (w_na1 s W) as X; unfold NA in X; rewrite map_map in X; exact X|].
    intros x H. apply (w_na2 s W (na_addr x)). unfold NA. apply (in_map (fun x => (na_addr x, na_n x))). auto.
  - split; [pose proof (w_la1 s W) as X; unfold LA in X; rewrite map_map in X; exact X|].
    intros x H. destruct (w_la2 s W (la_if x) (la_addr x) (la_l x)) as (n & Hn); [unfold LA; apply (in_map (fun x => ((la_if x, la_addr x), la_l x))); auto|].
    unfold LI in Hn. apply in_map_iff in Hn. destruct Hn as (l & E & Hl). injection E as E1 E2 E3. eauto.
  - split; [apply W|]. intros x H. apply (w_h2 s W _ (h2_addr x)). unfold H2. apply (in_map (fun x => (h2_l x, h2_addr x))). auto.
  - intros n m Hn Hm E A. apply (in_map_inj n_id (s_n s)); auto; [apply W|]. apply in_NO in Hn, Hm. rewrite <- E in Hm. eapply (w_o s W); eauto.
  - intros n p Hn E. apply in_ND in Hn. rewrite E in Hn. apply (w_nd s W) in Hn. unfold ND in Hn. apply in_map_iff in Hn.
    destruct Hn as (m & Em & Hm). injection Em as E1 E2. eauto.
  - intros n p Hn E. apply in_LD in Hn. rewrite E in Hn. apply (w_ld s W) in Hn. unfold LD in Hn. apply in_map_iff in Hn.
    destruct Hn as (m & Em & Hm). injection Em as E1 E2. eauto.
Qed.
