(** Proofs about the counter of symmetric links of a neighbor. *)
From Verif Require Import Base BufLemmas NhdpModel NhdpSpec NhdpProofs NhdpHello.

Definition CN s := map (fun n => (n_id n, n_sym n)) (s_n s).
Definition CL s := map (fun l => (l_id l, (l_n l, l_status l))) (s_l s).
Definition cnt (i : Z) (cl : list (Z * (Z * Z))) : Z := zlen (filter (fun x => (fst (snd x) =? i) && (snd (snd x) =? SYMMETRIC)) cl).
(** the counter of neighbor [j] is too high by [d], all others are right *)
Definition off (s : db) (j d : Z) : Prop := forall i k, In (i, k) (CN s) -> k = cnt i (CL s) + (if i =? j then d else 0).
Definition cn_ok (s : db) : Prop := forall i k, In (i, k) (CN s) -> k = cnt i (CL s).
Definition b2z (b : bool) : Z := if b then 1 else 0.

Lemma off_ok s j : cn_ok s <-> off s j 0.
Proof. unfold cn_ok, off. split; intros H i k I; specialize (H i k I); destruct (i =? j); lia. Qed.
Lemma cn_counts s : cn_ok s <-> counts_ok s.
Proof.
  unfold cn_ok, counts_ok, sym_links, cnt, CN, CL.
  assert (E : forall i, zlen (filter (fun x => (fst (snd x) =? i) && (snd (snd x) =? SYMMETRIC)) (map (fun l => (l_id l, (l_n l, l_status l))) (s_l s))) =
                        zlen (filter (fun l => (l_n l =? i) && (l_status l =? SYMMETRIC)) (s_l s))).
  { intros i. induction (s_l s) as [|l r IH]; auto. cbn [map filter fst snd]. destruct ((l_n l =? i) && (l_status l =? SYMMETRIC)); auto.
    rewrite !zlen_cons. lia. }
  split.
  - intros H n I. rewrite <- E. apply H. apply in_map_iff. eauto.
  - intros H i k I. apply in_map_iff in I. destruct I as (n & Q & I). injection Q as <- <-. rewrite E. auto.
Qed.

Lemma cnt_cons j x cl : cnt j (x :: cl) = b2z ((fst (snd x) =? j) && (snd (snd x) =? SYMMETRIC)) + cnt j cl.
Proof. unfold cnt. cbn [filter]. destruct (_ && _); cbn [b2z]; rewrite ?zlen_cons; lia. Qed.
Lemma cnt_app j a b : cnt j (a ++ b) = cnt j a + cnt j b.
Proof. unfold cnt. rewrite filter_app, zlen_app. lia. Qed.
Lemma cnt_del i n st j cl : NoDup (map fst cl) -> In (i, (n, st)) cl ->
  cnt j (del (fun x => fst x =? i) cl) = cnt j cl - b2z ((n =? j) && (st =? SYMMETRIC)).
Proof.
  intros N I. induction cl as [|x cl IH]; [destruct I|]. cbn [map] in N. inversion N as [|? ? N1 N2]; subst. rewrite cnt_cons.
  unfold del in *. cbn [filter]. destruct (fst x =? i) eqn:E; cbn [negb].
  - apply Z.eqb_eq in E. assert (x = (i, (n, st))) as ->.
    { destruct I as [I | I]; auto. exfalso. apply N1. rewrite E. eapply in_fst; eauto. }
    cbn [fst snd].
    assert (F : filter (fun x => negb (fst x =? i)) cl = cl).
    { cbn [fst] in N1. clear - N1. induction cl as [|y cl IH]; auto. cbn [filter map In] in *. destruct (fst y =? i) eqn:E; cbn [negb].
      - apply Z.eqb_eq in E. tauto.
      - rewrite IH; tauto. }
    rewrite F. lia.
  - apply Z.eqb_neq in E. destruct I as [I | I]; [subst x; cbn in E; congruence|]. rewrite cnt_cons, IH by auto. lia.
Qed.
Lemma cnt_set i n st st' j cl : NoDup (map fst cl) -> In (i, (n, st)) cl ->
  cnt j (map (fun x => if fst x =? i then (fst x, (fst (snd x), st')) else x) cl) =
  cnt j cl - b2z ((n =? j) && (st =? SYMMETRIC)) + b2z ((n =? j) && (st' =? SYMMETRIC)).
Proof.
  intros N I. induction cl as [|x cl IH]; [destruct I|]. cbn [map] in N. inversion N as [|? ? N1 N2]; subst. cbn [map]. rewrite !cnt_cons.
  destruct (fst x =? i) eqn:E.
  - apply Z.eqb_eq in E. assert (x = (i, (n, st))) as ->.
    { destruct I as [I | I]; auto. exfalso. apply N1. rewrite E. eapply in_fst; eauto. }
    cbn [fst snd].
    assert (F : map (fun x => if fst x =? i then (fst x, (fst (snd x), st')) else x) cl = cl).
    { cbn [fst] in N1. clear - N1. induction cl as [|y cl IH]; auto. cbn [map In] in *. destruct (fst y =? i) eqn:E.
      - apply Z.eqb_eq in E. tauto.
      - rewrite IH; tauto. }
    rewrite F. lia.
  - apply Z.eqb_neq in E. destruct I as [I | I]; [subst x; cbn in E; congruence|]. rewrite IH by auto. lia.
Qed.
Lemma cnt_del_other i j cl : i <> j -> cnt j (del (fun x => fst (snd x) =? i) cl) = cnt j cl.
Proof.
  intros N. induction cl as [|x cl IH]; auto. unfold del in *. cbn [filter]. destruct (fst (snd x) =? i) eqn:E; cbn [negb]; rewrite !cnt_cons, IH.
  - apply Z.eqb_eq in E. rewrite E. apply Z.eqb_neq in N. rewrite N. cbn. lia.
  - lia.
Qed.
Lemma cnt_none j cl : (forall x, In x cl -> fst (snd x) <> j) -> cnt j cl = 0.
Proof.
  intros H. induction cl as [|x cl IH]; auto. rewrite cnt_cons, IH by (intros; apply H; now right).
  specialize (H x (or_introl eq_refl)). apply Z.eqb_neq in H. rewrite H. reflexivity.
Qed.
Lemma CL_fst s : map fst (CL s) = LK s.
Proof. unfold CL, LK. rewrite map_map. reflexivity. Qed.
Lemma CN_fst s : map fst (CN s) = NI s.
Proof. unfold CN, NI. rewrite map_map. reflexivity. Qed.
Lemma in_CL s l : In l (s_l s) -> In (l_id l, (l_n l, l_status l)) (CL s).
Proof. intros H. unfold CL. apply (in_map (fun l => (l_id l, (l_n l, l_status l)))) in H. exact H. Qed.
Lemma in_CN s n : In n (s_n s) -> In (n_id n, n_sym n) (CN s).
Proof. intros H. unfold CN. apply (in_map (fun l => (n_id l, n_sym l))) in H. exact H. Qed.
Lemma get_l_CL s i l : get_l s i = Ok l -> In (i, (l_n l, l_status l)) (CL s).
Proof. intros H. apply get_l_inv in H. destruct H as (H & <- & _). now apply in_CL. Qed.

(** ** Quiet operations *)
Definition qc (s s' : db) : Prop := CN s' = CN s /\ CL s' = CL s.
Lemma qc_refl s : qc s s.
Proof. split; reflexivity. Qed.
Lemma qc_trans a b c : qc a b -> qc b c -> qc a c.
Proof. intros [] []. split; congruence. Qed.
Lemma qc_off s s' j d : qc s s' -> off s j d -> off s' j d.
Proof. intros [E1 E2] H. unfold off. rewrite E1, E2. exact H. Qed.
Lemma qc_ok s s' : qc s s' -> cn_ok s -> cn_ok s'.
Proof. intros [E1 E2] H. unfold cn_ok. rewrite E1, E2. exact H. Qed.
Lemma qc_upd_n s i f : (forall n, n_id (f n) = n_id n /\ n_sym (f n) = n_sym n) -> qc s (upd_n s i f).
Proof. intros H. split; auto. unfold upd_n, CN. cbn [set_n s_n]. apply map_upd. intros n. destruct (H n). congruence. Qed.
Lemma qc_upd_l s i f : (forall n, l_id (f n) = l_id n /\ l_n (f n) = l_n n /\ l_status (f n) = l_status n) -> qc s (upd_l s i f).
Proof. intros H. split; auto. unfold upd_l, CL. cbn [set_l s_l]. apply map_upd. intros n. destruct (H n) as (? & ? & ?). congruence. Qed.

Ltac inv H := match type of H with
  | rbind ?a _ = Ok _ => let E := fresh "E" in destruct a eqn:E; cbn [rbind] in H; [|discriminate H]
  end.
Ltac okinj H := injection H as <-.

Lemma qc_n_disconnect s i s' : n_disconnect s i = Ok s' -> qc s s'.
Proof.
  unfold n_disconnect. intros H. inv H. destruct (n_dual a); [inv H|]; okinj H; [|apply qc_refl].
  eapply qc_trans; apply qc_upd_n; intros; split; reflexivity.
Qed.
Lemma qc_l_disconnect s i s' : l_disconnect s i = Ok s' -> qc s s'.
Proof.
  unfold l_disconnect. intros H. inv H. destruct (l_dual a); [inv H|]; okinj H; [|apply qc_refl].
  eapply qc_trans; apply qc_upd_l; intros; repeat split; reflexivity.
Qed.
Lemma qc_n_connect s a b s' : n_connect s a b = Ok s' -> qc s s'.
Proof.
  unfold n_connect. intros H. inv H. inv H. assert (Q1 : qc s a1).
  { destruct (dual_is _ _) in E0; [okinj E0; apply qc_refl|]. inv E0. okinj E0. eapply qc_trans; [eapply qc_n_disconnect; eauto|]. apply qc_upd_n; intros; split; reflexivity. }
  inv H. eapply qc_trans; [exact Q1|]. destruct (dual_is _ _) in H; [okinj H; apply qc_refl|]. inv H. okinj H.
  eapply qc_trans; [eapply qc_n_disconnect; eauto|]. apply qc_upd_n; intros; split; reflexivity.
Qed.
Lemma qc_l_connect s a b s' : l_connect s a b = Ok s' -> qc s s'.
Proof.
  unfold l_connect. intros H. inv H. inv H. assert (Q1 : qc s a1).
  { destruct (dual_is _ _) in E0; [okinj E0; apply qc_refl|]. inv E0. okinj E0. eapply qc_trans; [eapply qc_l_disconnect; eauto|]. apply qc_upd_l; intros; repeat split; reflexivity. }
  inv H. eapply qc_trans; [exact Q1|]. destruct (dual_is _ _) in H; [okinj H; apply qc_refl|]. inv H. okinj H.
  eapply qc_trans; [eapply qc_l_disconnect; eauto|]. apply qc_upd_l; intros; repeat split; reflexivity.
Qed.
Lemma qc_set_originator s i a s' : set_originator s i a = Ok s' -> qc s s'.
Proof.
  unfold set_originator. intros H. inv H. destruct (addr_eqb (n_orig a0) a); [okinj H; apply qc_refl|]. inv H. inv H. inv H. okinj H.
  eapply qc_trans; [|apply qc_upd_n; intros; split; reflexivity].
  destruct (neigh_by_orig _ a) in E1; [inv E1|]; okinj E1; [|apply qc_refl]. apply qc_upd_n; intros; split; reflexivity.
Qed.
Lemma qc_handle s a s' : handle_originator s a = Ok s' -> qc s s'.
Proof.
  unfold handle_originator. destruct (neigh_by_orig s a) as [n|]; [|intros H; okinj H; apply qc_refl].
  destruct (dual_is _ _); [intros H; okinj H; apply qc_refl|].
  assert (X : (if n_pc n >? 0 then Ok s else set_originator s (n_id n) UNSPEC) = Ok s' -> qc s s').
  { destruct (n_pc n >? 0); [intros H; okinj H; apply qc_refl|apply qc_set_originator]. }
  destruct (c_n (s_cur s)); auto. destruct (c_nconf (s_cur s)); auto. intros H. okinj H. split; reflexivity.
Qed.
Lemma qc_dualstack h s L N s' : dualstack h s L N = Ok s' -> qc s s'.
Proof.
  unfold dualstack. destruct (h_hasorig h); [|intros H; okinj H; apply qc_refl]. destruct (negb _).
  - intros H. inv H. assert (Q1 : qc s a).
    { destruct (neigh_by_orig s (h_v4 h)); [eapply qc_n_connect; eauto|okinj E; apply qc_refl]. }
    eapply qc_trans; [exact Q1|]. destruct (link_by_orig _ _ _); [eapply qc_l_connect; eauto|okinj H; apply qc_refl].
  - destruct (_ =? _); [|intros H; okinj H; apply qc_refl]. intros H. inv H.
    eapply qc_trans; [eapply qc_n_disconnect; eauto|eapply qc_l_disconnect; eauto].
Qed.
Lemma l2hops_qc s p s' : l2hops_remove s p = Ok s' -> qc s s'.
Proof. unfold l2hops_remove. intros H. inv H. okinj H. split; reflexivity. Qed.
Lemma qc_pass2_2hop h s L N x s' : pass2_2hop h s L N x = Ok s' -> qc s s'.
Proof.
  unfold pass2_2hop. destruct (_ || _); [|intros H; okinj H; apply qc_refl]. destruct (e_own _ _ _).
  { intros H. inv H. inv H. okinj H. apply qc_refl. }
  destruct (e_any _ _); [intros H; okinj H; apply qc_refl|]. destruct (_ || _); intros H; inv H.
  - inv H. okinj H. destruct (existsb _ _) in E0; [okinj E0; split; reflexivity|]. unfold l2hop_add in E0. inv E0. inv E0. okinj E0. split; reflexivity.
  - eapply l2hops_qc; eauto.
Qed.
Lemma qc_pass1_addr h s x : qc s (pass1_addr h s x).
Proof.
  unfold pass1_addr. match goal with |- context [pass1_naddr s ?c x] => set (c1 := c) end.
  assert (A : qc s (fst (pass1_naddr s c1 x))).
  { clearbody c1. unfold pass1_naddr. destruct (_ || _); [|apply qc_refl]. destruct (naddr_get _ _); [|apply qc_refl]. apply qc_upd_n. intros; split; reflexivity. }
  destruct (pass1_naddr s c1 x) as [s1 c2]. cbn [fst] in A.
  assert (B : qc s1 (fst (pass1_laddr s1 c2 x))).
  { unfold pass1_laddr. destruct (_ =? _); [|apply qc_refl]. destruct (laddr_get _ _ _); [|apply qc_refl]. cbn [fst]. apply qc_upd_l. intros; repeat split; reflexivity. }
  destruct (pass1_laddr s1 c2 x) as [s2 c3]. cbn [fst] in B. eapply qc_trans; [exact A|]. eapply qc_trans; [exact B|]. split; reflexivity.
Qed.
Lemma qc_pass1 h l : forall s, qc s (fst (pass1 h s l)).
Proof.
  induction l as [|x l IH]; intros s; cbn [pass1]; [apply qc_refl|]. destruct (ha_ok1 x); [|apply qc_refl].
  eapply qc_trans; [apply qc_pass1_addr|apply IH].
Qed.
(** HELLOs without THIS_IF addresses count no link addresses *)
Lemma pass1_no_this h l : forall s, (forall x, In x l -> ~ this_if x) -> s_l (fst (pass1 h s l)) = s_l s.
Proof.
  induction l as [|x l IH]; intros s H; cbn [pass1]; auto. destruct (ha_ok1 x); auto.
  rewrite IH by (intros; apply H; now right). unfold pass1_addr. match goal with |- context [pass1_naddr s ?c x] => set (c1 := c) end.
  assert (A : s_l (fst (pass1_naddr s c1 x)) = s_l s).
  { clearbody c1. unfold pass1_naddr. destruct (_ || _); auto. destruct (naddr_get _ _); auto. }
  destruct (pass1_naddr s c1 x) as [s1 c2]. cbn [fst] in A. unfold pass1_laddr.
  destruct (ha_lif x =? THIS_IF) eqn:E; auto. apply lif_this in E. exfalso. apply (H x); auto. now left.
Qed.

(** ** Counting operations *)
Lemma CN_set_sym s i v : CN (upd_n s i (n_set_sym v)) = set1 i v (CN s).
Proof.
  unfold CN, set1, upd_n, upd, is_n. cbn [set_n s_n]. rewrite !map_map. apply map_ext. intros n. cbn [fst]. destruct (n_id n =? i); reflexivity.
Qed.
Lemma off_set_sym s n j d e : wf s -> get_n s j = Ok n -> off s j d -> off (upd_n s j (n_set_sym (n_sym n + e))) j (d + e).
Proof.
  intros W G O i k H. change (CL (upd_n s j (n_set_sym (n_sym n + e)))) with (CL s). rewrite CN_set_sym in H. apply in_set1 in H. destruct H as [(-> & -> & _) | (H1 & H2)].
  - apply get_n_inv in G. destruct G as (G & D & _). apply in_CN in G. apply O in G. rewrite D, Z.eqb_refl in *. lia.
  - apply O in H2. apply Z.eqb_neq in H1. rewrite H1 in *. lia.
Qed.
Lemma now_sym_off s i l s' d : wf s -> get_l s i = Ok l -> now_symmetric s i = Ok s' -> off s (l_n l) d -> off s' (l_n l) (d + 1).
Proof.
  intros W G H O. unfold now_symmetric in H. rewrite G in H. cbn [rbind] in H. inv H. pose proof (off_set_sym s a _ _ 1 W E O) as X.
  destruct (_ =? _); okinj H; auto.
Qed.
Lemma not_sym_off s i l s' d : wf s -> get_l s i = Ok l -> not_symmetric s i = Ok s' -> off s (l_n l) d -> off s' (l_n l) (d - 1).
Proof.
  intros W G H O. unfold not_symmetric in H. rewrite G in H. cbn [rbind] in H.
  destruct (l2hops_remove_ok s (fun x => h2_l x =? i) W) as (s1 & E1 & K1 & _). rewrite E1 in H. cbn [rbind] in H. apply l2hops_qc in E1.
  inv H. apply (qc_off _ _ _ _ E1) in O. pose proof (off_set_sym s1 a _ _ (-1) (k_wf _ _ K1) E O) as X.
  replace (n_sym a - 1) with (n_sym a + -1) in H by lia. replace (d - 1) with (d + -1) by lia.
  destruct (_ =? _); [inv H|]; okinj H; auto.
Qed.
Lemma CL_set_status s i st : CL (upd_l s i (l_set_status st)) = map (fun x => if fst x =? i then (fst x, (fst (snd x), st)) else x) (CL s).
Proof.
  unfold CL, upd_l, upd, is_l. cbn [set_l s_l]. rewrite !map_map. apply map_ext. intros n. cbn [fst snd]. destruct (l_id n =? i); reflexivity.
Qed.
Lemma set_status_off s i l st : wf s -> get_l s i = Ok l -> cn_ok s ->
  off (upd_l s i (l_set_status st)) (l_n l) (b2z (l_status l =? SYMMETRIC) - b2z (st =? SYMMETRIC)).
Proof.
  intros W G O j k H. change (CN (upd_l s i (l_set_status st))) with (CN s) in H. apply O in H. rewrite CL_set_status.
  rewrite (cnt_set i (l_n l) (l_status l)); [|rewrite CL_fst; apply W|now apply get_l_CL].
  rewrite (Z.eqb_sym j (l_n l)). destruct (l_n l =? j); cbn [andb b2z]; lia.
Qed.
Lemma update_status_cn s i s' : wf s -> update_status s i = Ok s' -> cn_ok s -> cn_ok s'.
Proof.
  intros W H O. unfold update_status in H. inv H. inv H. rename a into l, a0 into st, E into El.
  pose proof (set_status_off s i l st W El O) as X. set (s1 := upd_l s i (l_set_status st)) in *.
  assert (K1 : keep s s1) by (apply keep_upd_l; [auto|triv]).
  assert (G1 : get_l s1 i = Ok (l_set_status st l)) by (apply get_l_upd_same; auto).
  inv H. inv H. okinj H. rename a into s2, a0 into s3.
  apply (off_ok _ (l_n l)).
  destruct (l_status l =? SYMMETRIC) eqn:B1, (st =? SYMMETRIC) eqn:B2; cbn [andb negb b2z] in *.
  - okinj E. okinj E1. replace (1 - 1) with 0 in X by lia. auto.
  - okinj E1. apply (not_sym_off s1 i _ _ _ (k_wf _ _ K1) G1 E) in X. exact X.
  - okinj E. apply (now_sym_off s1 i _ _ _ (k_wf _ _ K1) G1 E1) in X. exact X.
  - okinj E. okinj E1. auto.
Qed.
Lemma CL_link_remove s i s' : link_remove s i = Ok s' -> CL s' = del (fun x => fst x =? i) (CL s) /\ CN s' = CN s.
Proof.
  intros H. unfold link_remove in H. inv H. inv H. inv H. inv H. okinj H.
  assert (Q : qc s a0) by (destruct (active _) in E0; [eapply qc_l_disconnect; eauto|okinj E0; apply qc_refl]). destruct Q as [Q1 Q2].
  split; [|auto]. rewrite <- Q2. unfold CL. cbn [set_l s_l]. apply map_del. reflexivity.
Qed.
Lemma link_remove_off s i l s' d : wf s -> get_l s i = Ok l -> link_remove s i = Ok s' -> off s (l_n l) d -> off s' (l_n l) (d + b2z (l_status l =? SYMMETRIC)).
Proof.
  intros W G H O. apply CL_link_remove in H. destruct H as [E1 E2]. intros j k I. rewrite E2 in I. apply O in I. rewrite E1.
  rewrite (cnt_del i (l_n l) (l_status l)); [|rewrite CL_fst; apply W|now apply get_l_CL].
  rewrite (Z.eqb_sym j (l_n l)) in *. destruct (l_n l =? j); cbn [andb b2z]; lia.
Qed.
Lemma CL_links_remove ids : forall s s', links_remove s ids = Ok s' -> CL s' = del (fun x => hit ids (fst x)) (CL s) /\ CN s' = CN s.
Proof.
  induction ids as [|i ids IH]; intros s s' H; cbn [links_remove] in H.
  - okinj H. split; auto. unfold del. cbn. induction (CL s); cbn; congruence.
  - inv H. apply CL_link_remove in E. destruct E as [E1 E2]. apply IH in H. destruct H as [H1 H2]. split; [|congruence].
    rewrite H1, E1, del_del. apply del_ext. reflexivity.
Qed.
Lemma neighbor_remove_cn s i s' : wf s -> In i (NI s) -> neighbor_remove s i = Ok s' -> cn_ok s -> cn_ok s'.
Proof.
  intros W I H O. unfold neighbor_remove in H. destruct (n_disconnect_ok s i W I) as (s1 & E1 & W1 & _). rewrite E1 in H. cbn [rbind] in H.
  apply qc_n_disconnect in E1. apply (qc_ok _ _ E1) in O. inv H. okinj H. apply CL_links_remove in E. destruct E as [Q1 Q2].
  match goal with |- cn_ok ?x => set (s3 := x) end.
  assert (E2 : CN s3 = del (fun x => fst x =? i) (CN a)) by (apply map_del; reflexivity).
  assert (E3 : CL s3 = CL a) by reflexivity.
  intros j k H. rewrite E2 in H. apply in_del in H. destruct H as [H Hj]. cbn in Hj. apply Z.eqb_neq in Hj. rewrite Q2 in H. apply O in H.
  rewrite E3, Q1, H. rewrite <- (cnt_del_other i j) by auto. f_equal. apply del_ext. intros [x [n st]] Hx. cbn [fst snd].
  apply eq_iff_eq_true. rewrite hit_In, Z.eqb_eq, links_of_LI by auto. unfold CL in Hx. apply in_map_iff in Hx. destruct Hx as (l & El & Hl).
  injection El as <- <- <-. apply in_LI in Hl. split.
  - intros <-. eauto.
  - intros (f & Hf). pose proof (LI_fun _ _ _ _ W1 Hl Hf). congruence.
Qed.
Lemma cb_link_vtime_cn s i s' : wf s -> In i (LK s) -> cb_link_vtime s i = Ok s' -> cn_ok s -> cn_ok s'.
Proof.
  intros W I H O. unfold cb_link_vtime in H. destruct (link_full' s i W I) as (l & El & Il & Dl & Kn & Kf). rewrite El in H. cbn [rbind] in H.
  inv H. rename a into s2. inv H. rename a into s3.
  assert (K2 : keep s s2).
  { destruct (l_status l =? SYMMETRIC); [|okinj E; now apply keep_refl]. destruct (not_symmetric_ok s i W I) as (x & Ex & K). rewrite Ex in E. okinj E. auto. }
  assert (X : off s2 (l_n l) (- b2z (l_status l =? SYMMETRIC)) /\ exists l2, get_l s2 i = Ok l2 /\ l_n l2 = l_n l /\ l_status l2 = l_status l).
  { apply (off_ok _ (l_n l)) in O. destruct (l_status l =? SYMMETRIC) eqn:B; cbn [b2z].
    - split; [apply (not_sym_off s i l s2 0 W El E O)|]. unfold not_symmetric in E. rewrite El in E. cbn [rbind] in E. inv E. inv E.
      assert (s_l a = s_l s) by (unfold l2hops_remove in E1; inv E1; okinj E1; reflexivity).
      exists l. split; auto. destruct (_ =? _) in E; [inv E|]; okinj E; unfold get_l; cbn; rewrite H0; exact El.
    - okinj E. split; auto. exists l. auto. }
  destruct X as (X & l2 & G2 & N2 & S2). rewrite <- N2 in X.
  apply (link_remove_off s2 i l2 s3 _ (k_wf _ _ K2) G2 E0) in X. rewrite S2 in X.
  replace (- b2z (l_status l =? SYMMETRIC) + b2z (l_status l =? SYMMETRIC)) with 0 in X by lia. apply (off_ok s3 (l_n l2)) in X.
  destruct (link_remove_ok s2 i) as (x & Ex & W3 & C3 & R); [apply K2|rewrite (keep_LK _ _ K2); auto|]. rewrite Ex in E0. okinj E0.
  destruct (links_of x (l_n l)); [|okinj H; auto]. eapply neighbor_remove_cn; [exact W3| |exact H|auto].
  destruct R as (_ & -> & _). rewrite (k_NI _ _ K2). auto.
Qed.

(** ** HELLOs *)
Lemma CL_none s j : wf s -> ~ In j (NI s) -> cnt j (CL s) = 0.
Proof.
  intros W N. apply cnt_none. intros x Hx E. unfold CL in Hx. apply in_map_iff in Hx. destruct Hx as (l & El & Hl). subst x. cbn in E.
  apply in_LI in Hl. destruct (w_li s W _ _ _ Hl). congruence.
Qed.
Lemma neighbor_add_cn s : wf s -> cn_ok s -> cn_ok (fst (neighbor_add s)).
Proof.
  intros W O i k H. change (CL (fst (neighbor_add s))) with (CL s). change (CN (fst (neighbor_add s))) with (map (fun n => (n_id n, n_sym n)) (s_n s ++ [{| n_id := s_next s; n_orig := UNSPEC; n_sym := 0; n_dual := None; n_pc := 0 |}])) in H.
  rewrite map_snoc in H. apply in_app_iff in H. destruct H as [H | [H | []]]; [auto|]. cbn in H. injection H as <- <-.
  rewrite CL_none; auto. intros C. apply (w_nf s W) in C. lia.
Qed.
Lemma link_add_cn s n f s' L : link_add s n f = Ok (s', L) -> cn_ok s -> cn_ok s'.
Proof.
  intros H O. unfold link_add in H. inv H. inv H. injection H as <- <-. intros i k I. apply O in I. rewrite I.
  unfold CL. cbn [set_next set_l s_l]. rewrite map_snoc, cnt_app, cnt_cons. cbn [fst snd l_n l_status]. change (cnt i []) with 0.
  match goal with |- context [(?a =? i) && ?b] => change b with false end. rewrite andb_false_r. cbn [b2z]. lia.
Qed.
(** [Q]: a link address of the HELLO belongs to [L], or its link has not been counted *)
Lemma localif_cn s L ln N a lif s' : wf s -> has s L ln (c_if (s_cur s)) N -> calm s ln N (eq a) -> pass2_localif s L N a lif = Ok s' -> cn_ok s ->
  (lif = THIS_IF -> forall z, In ((c_if (s_cur s), a), z) (LA s) -> z = L \/ exists l, get_l s z = Ok l /\ l_pc l <> 1) ->
  cn_ok s' /\ forall x z, In (x, z) (LA s') -> In (x, z) (LA s) \/ z = L.
Proof.
  intros W (HL & HN) Q H O PC. rewrite localif_split in H. inv H. rename a0 into s1.
  assert (X : wf s1 /\ qc s s1 /\ NI s1 = NI s /\ forall x z, In (x, z) (LA s1) -> In (x, z) (LA s) \/ z = L).
  { unfold li1 in E. destruct (lif =? THIS_IF) eqn:T; [|okinj E; split; auto; split; [apply qc_refl|auto]].
    apply Z.eqb_eq in T. specialize (PC T). destruct (laddr_get s (c_if (s_cur s)) a) as [la|] eqn:G.
    - apply laddr_get_LA in G. destruct G as (G1 & G2 & G3 & G4). inv E. rename a0 into l.
      set (s2 := upd_l s (la_l la) (l_set_pc (l_pc l - 1))) in *. assert (K1 : keep s s2) by (apply keep_upd_l; [auto|triv]).
      assert (Q1 : qc s s2) by (apply qc_upd_l; intros; repeat split; reflexivity).
      cbv zeta in E. inv E. rename a0 into s3. okinj E.
      assert (Y : wf s3 /\ qc s s3 /\ NI s3 = NI s /\ forall x z, In (x, z) (LA s3) -> In (x, z) (LA s) \/ z = L).
      { destruct (la_l la =? L) eqn:B.
        - okinj E1. split; [apply K1|]. split; [exact Q1|]. split; [apply K1|]. rewrite (k_LA _ _ K1). auto.
        - apply Z.eqb_neq in B. destruct (laddr_move_ok s2 L ln (c_if (s_cur s)) la) as (s4 & E4 & W4 & C4 & F1 & F2 & F3 & F4 & F5 & F6);
            [apply K1|rewrite (k_LI _ _ K1); auto|exact G1|auto|]. rewrite E4 in E1. cbn [rbind] in E1.
          destruct (PC _ G4) as [PC1 | (l' & PC1 & PC2)]; [congruence|]. rewrite E0 in PC1. injection PC1 as <-.
          destruct (l_pc l - 1 =? 0) eqn:PZ; [apply Z.eqb_eq in PZ; lia|]. okinj E1.
          split; auto. split; [eapply qc_trans; [exact Q1|]|split; [rewrite F1; apply K1|]].
          + unfold laddr_move in E4. inv E4. inv E4. inv E4. inv E4. okinj E4. split; reflexivity.
          + intros x z Hz. rewrite F6 in Hz. apply in_map_iff in Hz. destruct Hz as ([y w] & Ey & Hy). cbn [fst snd] in Ey.
            rewrite (k_LA _ _ K1) in Hy. destruct (_ && _); injection Ey as <- <-; auto. }
      destruct Y as (Y1 & Y2 & Y3 & Y4). match goal with |- wf ?x /\ _ => assert (K3 : keep s3 x) by (apply keep_upd_la; [auto|triv]) end.
      split; [apply K3|]. split; [exact Y2|]. split; [rewrite (k_NI _ _ K3); auto|]. rewrite (k_LA _ _ K3). auto.
    - destruct (laddr_add_ok s L ln _ a W HL G) as (x & Ex & W1 & C1 & E1 & E2 & E3 & E4 & E5 & _). rewrite Ex in E. okinj E.
      split; auto. split; [unfold laddr_add in Ex; inv Ex; inv Ex; inv Ex; okinj Ex; split; reflexivity|]. split; auto.
      rewrite E5. intros y z Hz. apply in_app_iff in Hz. destruct Hz as [Hz | [Hz | []]]; auto. injection Hz as <- <-. auto. }
  destruct X as (W1 & Q1 & N1 & A1). apply (qc_ok _ _ Q1) in O. unfold li2 in H.
  destruct (naddr_get s1 a) as [na|] eqn:G.
  - apply naddr_get_NA in G. destruct G as (G1 & G2 & G3). inv H. rename a0 into n. cbv zeta in H. inv H. okinj H. rename a0 into s3.
    set (s2 := upd_n s1 (na_n na) (n_set_pc (n_pc n - 1))) in *.
    assert (K2 : keep s1 s2) by (apply keep_upd_n; [auto|triv]). assert (Q2 : qc s1 s2) by (apply qc_upd_n; intros; split; reflexivity).
    apply (qc_ok _ _ Q2) in O.
    assert (Y : cn_ok s3 /\ (forall x, In x (LA s3) -> In x (LA s1))).
    { destruct (na_n na =? N) eqn:B; [okinj E1; rewrite (k_LA _ _ K2); auto|].
      destruct (naddr_move_ok s2 N a) as (W3 & C3 & F1 & F2 & F3 & F4 & F5 & F6); [apply K2|rewrite (k_NI _ _ K2), N1; auto|].
      set (s4 := naddr_move s2 N a) in *. assert (O4 : cn_ok s4) by exact O.
      destruct (n_pc n - 1 =? 0); [|okinj E1; split; auto; rewrite F4, (k_LA _ _ K2); auto].
      assert (I4 : In (na_n na) (NI s4)) by (rewrite F1, (k_NI _ _ K2); eapply (w_na2 s1 W1); eauto).
      split; [eapply neighbor_remove_cn; eauto|].
      destruct (neighbor_remove_ok s4 (na_n na) W3 I4) as (s5 & Ex & W5 & C5 & R1 & R2 & R3 & R4 & R5 & R6 & R7). rewrite Ex in E1. okinj E1.
      intros x Hx. apply R6 in Hx. rewrite F4, (k_LA _ _ K2) in Hx. auto. }
    destruct Y as (Y1 & Y2). split; [exact Y1|]. intros x z Hz. apply A1. apply Y2. exact Hz.
  - unfold naddr_add in H. inv H. okinj H. split; [exact O|exact A1].
Qed.

(** link addresses of the HELLO belong to the link [L] *)
Definition ours (s : db) (f L : Z) (l : list haddr) : Prop := forall x z, In x l -> this_if x -> In ((f, ha_addr x), z) (LA s) -> z = L.
Lemma pass2_addr_cn h L ln N s x r s' : p2 h s L ln N (x :: r) -> ours s (h_if h) L (x :: r) -> pass2_addr h L N s x = Ok s' -> cn_ok s ->
  cn_ok s' /\ ours s' (h_if h) L r.
Proof.
  intros P U H O. pose proof P as [W HS R1 R2 R3 R4 R5]. unfold pass2_addr in H. inv H. rename a into s1.
  assert (X : cn_ok s1 /\ ours s1 (h_if h) L r).
  { destruct (_ || _) eqn:B in E.
    - apply lif_local in B. rewrite <- R1 in HS. destruct (localif_cn s L ln N (ha_addr x) (ha_lif x) s1 W HS) as (O1 & A1); auto.
      + destruct R5 as [Q | Q]; [left; auto|right]. intros a z <- Hz. apply (Q (ha_addr x)); auto. exists x. cbn. auto.
      + intros T z Hz. left. rewrite R1 in Hz. apply (U x z); [now left| |auto]. apply lif_this. rewrite T. reflexivity.
      + split; auto. intros y z Hy Ty Hz. apply A1 in Hz. destruct Hz as [Hz | Hz]; auto. apply (U y z); auto. now right.
    - okinj E. split; auto. intros y z Hy. apply U. now right. }
  destruct X as (O1 & U1). assert (Q : qc s1 s') by (eapply qc_pass2_2hop; eauto). split; [eapply qc_ok; eauto|].
  destruct (pass2_addr_ok h L ln N s x r P) as (s2 & E2 & P2). unfold pass2_addr in E2. rewrite E in E2. cbn [rbind] in E2. rewrite E2 in H. okinj H.
  assert (LA s2 = LA s1) as EL; [|intros y z Hy Ty Hz; rewrite EL in Hz; eauto].
  clear - E2. unfold pass2_2hop in E2. destruct (_ || _) in E2; [|okinj E2; auto]. destruct (e_own _ _ _) in E2; [inv E2; inv E2; okinj E2; auto|].
  destruct (e_any _ _) in E2; [okinj E2; auto|]. destruct (_ || _) in E2; inv E2.
  - inv E2. okinj E2. destruct (existsb _ _) in E0; [okinj E0; auto|]. unfold l2hop_add in E0. inv E0. inv E0. okinj E0. auto.
  - unfold l2hops_remove in E2. inv E2. okinj E2. auto.
Qed.
Lemma pass2_cn h L ln N l : forall s s' d, p2 h s L ln N l -> ours s (h_if h) L l -> pass2 h L N s l = Ok (s', d) -> cn_ok s -> cn_ok s'.
Proof.
  induction l as [|x l IH]; intros s s' d P U H O; cbn [pass2] in H.
  - injection H as <- <-. auto.
  - destruct (ha_ok2 x); [|injection H as <- <-; auto]. inv H.
    destruct (pass2_addr_cn h L ln N s x l a P U E O) as (O1 & U1). destruct (pass2_addr_ok h L ln N s x l P) as (y & Ey & P1).
    rewrite Ey in E. okinj E. eapply IH; eauto.
Qed.
Lemma pass2_end_cn h s L ln N s' : p2 h s L ln N [] -> pass2_end h s L N = Ok s' -> cn_ok s -> cn_ok s'.
Proof.
  intros P H O. unfold pass2_end in H. inv H. destruct (pass2_leftover_ok h s L ln N P) as (x & Ex & P1). rewrite Ex in E. okinj E.
  assert (O1 : cn_ok x).
  { unfold pass2_leftover in Ex. inv Ex. inv Ex. inv Ex. apply l2hops_qc in Ex. eapply qc_ok; [exact Ex|]. exact O. }
  inv H. rename a into s2. inv H. rename a into s3. inv H. rename a into s4.
  destruct P1 as [W1 (HL & HN) R1 R2 R3 R4 R5]. apply LI_LK in HL.
  assert (X : cn_ok s2 /\ keep x s2).
  { unfold pass2_symtime in E. destruct (c_heard (s_cur x)).
    - assert (K1 : keep x (upd_l x L (l_set_sym (timer x (h_vtime h))))) by (apply keep_upd_l; [auto|triv]). split.
      + eapply update_status_cn; [apply K1|exact E|]. eapply qc_ok; [|exact O1]. apply qc_upd_l; intros; repeat split; reflexivity.
      + destruct (update_status_ok (upd_l x L (l_set_sym (timer x (h_vtime h)))) L) as (y & Ey & K2); [apply K1|rewrite (keep_LK _ _ K1); auto|].
        rewrite Ey in E. okinj E. eapply keep_trans; eauto.
    - destruct (c_lost (s_cur x)); [|okinj E; split; auto; now apply keep_refl]. inv E. destruct (active (l_sym a)); [|okinj E; split; auto; now apply keep_refl].
      cbv zeta in E. inv E. inv E. okinj E. set (y := upd_l x L (l_set_sym None)).
      assert (K1 : keep x y) by (apply keep_upd_l; [auto|triv]). assert (Q1 : qc x y) by (apply qc_upd_l; intros; repeat split; reflexivity).
      destruct (a1 =? HEARD); [|split; [eapply qc_ok; eauto|auto]]. split.
      + eapply qc_ok; [|exact O1]. eapply qc_trans; [exact Q1|]. apply qc_upd_l; intros; repeat split; reflexivity.
      + eapply keep_trans; [exact K1|]. apply keep_upd_l; [apply K1|triv]. }
  destruct X as (O2 & K2).
  assert (X : cn_ok s3 /\ keep s2 s3).
  { unfold pass2_times in E0. inv E0. match goal with H : context [upd_l s2 L (l_set_heard ?t)] |- _ =>
      assert (K1 : keep s2 (upd_l s2 L (l_set_heard t))) by (apply keep_upd_l; [apply K2|triv]);
      assert (Q1 : qc s2 (upd_l s2 L (l_set_heard t))) by (apply qc_upd_l; intros; repeat split; reflexivity) end.
    match type of E0 with (if ?b then _ else _) = _ => destruct b end; okinj E0; (split; [eapply qc_ok; [|exact O2]|]); auto.
    - eapply qc_trans; [exact Q1|]. apply qc_upd_l; intros; repeat split; reflexivity.
    - eapply keep_trans; [exact K1|]. apply keep_upd_l; [apply K1|triv]. }
  destruct X as (O3 & K3). assert (K13 : keep x s3) by (eapply keep_trans; eauto).
  destruct (set_originator_ok s3 N (h_orig h)) as (y & Ey & K4); [apply K3|rewrite (k_NI _ _ K13); auto|]. rewrite Ey in E1. okinj E1.
  eapply update_status_cn; [apply K4|exact H|]. eapply qc_ok; [eapply qc_set_originator; eauto|auto].
Qed.
Lemma pass1_end_cn h s0 s s' L ln N : wf s0 -> p1 h s0 s (h_addrs h) -> In (h_if h) (s_ifs s0) ->
  one (kn s0 (h_addrs h)) \/ none (kl s0 (h_if h) (h_addrs h)) \/ ~ one (kl s0 (h_if h) (h_addrs h)) ->
  one (kl s0 (h_if h) (h_addrs h)) ->
  ((forall x, In x (h_addrs h) -> ~ this_if x) -> forall l, In l (s_l s) -> l_if l = h_if h -> l_pc l = 0) ->
  pass1_end h s = Ok (s', L, N) -> p2 h s' L ln N (h_addrs h) -> cn_ok s -> cn_ok s' /\ ours s' (h_if h) L (h_addrs h).
Proof.
  intros W P IF M O1 PC H P2 O. pose proof (p1_alive _ _ _ _ W P) as (Al & An). destruct P as [S En Nw If Fn Fl Ft]. unfold pass1_end in H.
  assert (Ws : wf s) by (eapply same_wf; eauto).
  inv H. rename a into s1.
  assert (X : wf s1 /\ NI s1 = NI s /\ LI s1 = LI s /\ NA s1 = NA s /\ LA s1 = LA s /\ s_ifs s1 = s_ifs s /\ qc s s1 /\ s_l s1 = s_l s /\
     (s_cur s1 = s_cur s \/ c_n (s_cur s) = None /\ c_nconf (s_cur s) = false /\ exists i, In i (NI s) /\ s_cur s1 = with_n (s_cur s) (Some i))).
  { destruct (h_hasorig h && _ && _) in E; [|okinj E; auto 15 using qc_refl].
    destruct (handle_originator_ok s (h_orig h) Ws An) as (x & Ex & A0 & A1 & A2 & A3 & A4 & A5 & A6 & A7 & A8). rewrite Ex in E. okinj E.
    split; auto. split; auto. split; auto. split; auto. split; auto. split; auto. split; [eapply qc_handle; eauto|]. split; [|auto].
    clear - Ex. unfold handle_originator in Ex. destruct (neigh_by_orig s (h_orig h)) as [n|]; [|okinj Ex; auto].
    assert (Y : (if n_pc n >? 0 then Ok s else set_originator s (n_id n) UNSPEC) = Ok x -> s_l x = s_l s).
    { destruct (n_pc n >? 0); [intros H; okinj H; auto|]. unfold set_originator. intros H. inv H. destruct (addr_eqb _ _) in H; [okinj H; auto|].
      inv H. inv H. inv H. okinj H. destruct (neigh_by_orig _ _) in E1; [inv E1|]; okinj E1; auto. }
    destruct (dual_is _ _) in Ex; [okinj Ex; auto|]. destruct (c_n (s_cur s)); auto. destruct (c_nconf (s_cur s)); auto. okinj Ex. auto. }
  destruct X as (W1 & A1 & A2 & A3 & A4 & A5 & A6 & A7 & A8). apply (qc_ok _ _ A6) in O.
  assert (CL1 : c_l (s_cur s1) = c_l (s_cur s)) by (destruct A8 as [-> | (_ & _ & i & _ & ->)]; auto).
  assert (CI : c_if (s_cur s1) = h_if h) by (destruct A8 as [-> | (_ & _ & i & _ & ->)]; auto).
  assert (CT : c_thisif (s_cur s1) = c_thisif (s_cur s)) by (destruct A8 as [-> | (_ & _ & i & _ & ->)]; auto).
  inv H. destruct a as [s2 N2]. cbn [fst snd] in H.
  assert (X : wf s2 /\ cn_ok s2 /\ In N2 (NI s2) /\ c_l (s_cur s2) = c_l (s_cur s) /\ c_if (s_cur s2) = h_if h /\ c_thisif (s_cur s2) = c_thisif (s_cur s) /\
              LI s2 = LI s /\ LA s2 = LA s /\ s_l s2 = s_l s /\ s_ifs s2 = s_ifs s).
  { unfold pass1_neigh in E0. destruct (c_n (s_cur s1)) as [i|] eqn:CN1.
    - inv E0. injection E0 as <- <-. match goal with |- wf ?x /\ _ => assert (K : keep s1 x) by (apply keep_upd_na; [auto|triv]) end.
      split; [apply K|]. split; [exact O|]. split; [rewrite (k_NI _ _ K); apply get_n_inv in E1; tauto|]. split; [exact CL1|]. split; [exact CI|]. split; [exact CT|].
      split; [exact A2|]. split; [exact A4|]. split; [exact A7|exact A5].
    - destruct (neighbor_add_ok s1 W1) as (W2 & C2 & E2 & E3 & E4 & E5 & E6 & E7 & E8). pose proof (neighbor_add_cn s1 W1 O) as O2.
      assert (SL : s_l (fst (neighbor_add s1)) = s_l s1) by reflexivity.
      destruct (neighbor_add s1) as [x i]. cbn [fst snd] in *. injection E0 as <- <-. subst i. destruct C2 as [C2 C3 C4 C5].
      split; [eapply same_wf; [apply same_cur|auto]|]. split; [exact O2|]. split; [change (NI (set_cur ?x ?y)) with (NI x); rewrite E3; apply in_app_iff; cbn; auto|].
      cbn. rewrite C2. split; auto. split; auto. split; auto. split; [rewrite <- A2, <- E5; reflexivity|]. split; [rewrite <- A4, <- E7; reflexivity|]. split; congruence. }
  destruct X as (W2 & O2 & HN2 & B2 & B3 & B4 & B5 & B7 & B8 & B9).
  inv H. destruct a as [s3 L3]. cbn [fst snd] in H.
  assert (X : exists ln3, wf s3 /\ cn_ok s3 /\ has s3 L3 ln3 (h_if h) N2 /\ c_if (s_cur s3) = h_if h /\ c_thisif (s_cur s3) = c_thisif (s_cur s) /\ LA s3 = LA s /\
     (c_l (s_cur s) = None -> ln3 = N2 /\ exists l, s_l s3 = s_l s ++ [l] /\ l_pc l = 0 /\ l_if l = h_if h) /\ (forall i, c_l (s_cur s) = Some i -> i = L3)).
  { unfold pass1_link in E1. destruct (c_l (s_cur s2)) as [i|] eqn:CL2.
    - inv E1. injection E1 as <- <-. match goal with |- exists _, wf ?x /\ _ => assert (K : keep s2 x) by (apply keep_upd_la; [auto|triv]) end.
      assert (Li : exists ln, In (i, (ln, h_if h)) (LI s2)).
      { rewrite <- B2 in Fl. destruct Fl as (_ & (x & _ & _ & Hx) & _). apply (w_la2 s0 W) in Hx. rewrite B5, (e_LI _ _ S). auto. }
      destruct Li as (ln3 & Li). exists ln3.
      split; [apply K|]. split; [exact O2|]. split; [split; [rewrite (k_LI _ _ K); auto|rewrite (k_NI _ _ K); auto]|]. split; [exact B3|]. split; [exact B4|]. split; [rewrite (k_LA _ _ K); auto|].
      split; [intros C; congruence|]. intros j Hj. congruence.
    - inv E1. destruct a as [x id]. cbn [fst snd] in E1. injection E1 as <- <-. rewrite B3 in E2.
      destruct (link_add_ok s2 N2 (h_if h) W2 HN2) as (y & Ey & W3 & C3 & F1 & F2 & F3 & F4 & F5 & F6).
      { rewrite B9, (e_ifs _ _ S). auto. }
      pose proof (link_add_cn s2 N2 (h_if h) _ _ E2 O2) as O3. rewrite Ey in E2. injection E2 as <- <-. exists N2.
      split; [eapply same_wf; [apply same_cur|auto]|]. split; [exact O3|].
      split; [split; [change (LI (set_cur ?x ?y)) with (LI x); rewrite F3; apply in_app_iff; cbn; auto|change (NI (set_cur ?x ?y)) with (NI x); rewrite F1; auto]|].
      cbn. split; auto. split; auto. split; [change (LA y = LA s); congruence|]. split; [|intros j Hj; congruence].
      intros _. split; auto. unfold link_add in Ey. inv Ey. inv Ey. injection Ey as <-. eexists. cbn. rewrite B8. split; [reflexivity|]. auto. }
  destruct X as (ln3 & W3 & O3 & H3 & D3 & D4 & D5 & D7 & D8).
  set (s4 := upd_l s3 L3 (fun l => l_set_addr (h_src h) (if a_af (h_mac h) =? 0 then l_mac l else h_mac h) l)) in *.
  assert (K4 : keep s3 s4) by (apply keep_upd_l; [auto|triv]).
  assert (H4 : has s4 L3 ln3 (h_if h) N2) by (destruct H3; split; [rewrite (k_LI _ _ K4); auto|rewrite (k_NI _ _ K4); auto]).
  assert (O4 : cn_ok s4) by (eapply qc_ok; [|exact O3]; apply qc_upd_l; intros; repeat split; reflexivity).
  assert (CT4 : c_thisif (s_cur s4) = c_thisif (s_cur s)) by exact D4.
  assert (CI4 : c_if (s_cur s4) = h_if h) by exact D3.
  assert (U4 : ours s4 (h_if h) L3 (h_addrs h)).
  { intros x z X1 X2 Hz. rewrite (k_LA _ _ K4), D5, (e_LA _ _ S) in Hz. assert (KZ : kl s0 (h_if h) (h_addrs h) z) by (exists x; auto).
    destruct (c_l (s_cur s)) as [i|] eqn:E3.
    - destruct Fl as (_ & _ & F2). rewrite (F2 z); auto.
    - destruct (c_lconf (s_cur s)); [|exfalso; eapply Fl; eauto]. destruct Fl as (p & q & Hp & Hq & Hpq). exfalso. apply Hpq. now apply O1. }
  inv H. rename a into s5. inv H. inv H. rename a0 into s6. injection H as <- <- <-.
  assert (X : cn_ok s5 /\ ours s5 (h_if h) L3 (h_addrs h)).
  { destruct (c_thisif (s_cur s4)) eqn:T; [okinj E2; auto|].
    assert (NT : forall x, In x (h_addrs h) -> ~ this_if x).
    { intros x Hx Tx. assert (c_thisif (s_cur s) = true) by (apply Ft; eauto). congruence. }
    destruct (c_l (s_cur s)) as [i|] eqn:E5; [exfalso; destruct Fl as (_ & (x & F1 & F2 & _) & _); eapply NT; eauto|].
    destruct (D7 eq_refl) as (-> & l & SL & PL & IL). rewrite <- CI4 in H4.
    destruct (localif_cn s4 L3 N2 N2 (h_src h) THIS_IF s5 (k_wf _ _ K4) H4 (or_introl eq_refl) E2 O4) as (O5 & A5'); [|split; [exact O5|]].
    - intros _ z Hz. right. destruct (w_la2 s4 (k_wf _ _ K4) _ _ _ Hz) as (m & Hm).
      destruct (link_full s4 _ _ _ (k_wf _ _ K4) Hm) as (lz & Gz & Iz & Dz & Nz & Fz & _). exists lz. split; auto. rewrite CI4 in Fz.
      unfold s4, upd_l in Iz. cbn [set_l s_l] in Iz. apply in_upd in Iz. destruct Iz as (y & Iy & ->). assert (l_pc y = 0 -> l_pc (if is_l L3 y then l_set_addr (h_src h) (if a_af (h_mac h) =? 0 then l_mac y else h_mac h) y else y) <> 1) as Q.
      { destruct (is_l L3 y); cbn; lia. }
      apply Q. rewrite SL in Iy. apply in_app_iff in Iy. destruct Iy as [Iy | [<- | []]]; [|auto]. apply PC; auto.
      destruct (is_l L3 y); exact Fz.
    - intros x z Hx Tx. exfalso. eapply NT; eauto. }
  destruct X as (O5 & U5). assert (Q6 : qc s5 s6) by (eapply qc_dualstack; eauto). split; [eapply qc_ok; eauto|].
  assert (LA s6 = LA s5) as EL; [|intros y z Hy Ty Hz; rewrite EL in Hz; eauto].
  clear - E4. unfold dualstack in E4. destruct (h_hasorig h); [|okinj E4; auto]. destruct (negb _) in E4.
  - inv E4. assert (LA a = LA s5).
    { destruct (neigh_by_orig s5 (h_v4 h)); [|okinj E; auto]. unfold n_connect in E. inv E. inv E. inv E.
      assert (D : forall s i s', n_disconnect s i = Ok s' -> LA s' = LA s).
      { clear. intros s i s' H. unfold n_disconnect in H. inv H. destruct (n_dual a); [inv H|]; okinj H; auto. }
      assert (LA a1 = LA s5) by (destruct (dual_is _ _) in E1; [okinj E1; auto|inv E1; okinj E1; apply D in E3; auto]).
      destruct (dual_is _ _) in E; [okinj E; auto|inv E; okinj E; apply D in E3; change (LA a3 = LA s5); congruence]. }
    destruct (link_by_orig _ _ _) in E4; [|okinj E4; auto]. rewrite <- H. clear H.
    assert (D : forall s i s', l_disconnect s i = Ok s' -> LA s' = LA s).
    { clear. intros s i s' H. unfold l_disconnect in H. inv H. destruct (l_dual a); [inv H|]; okinj H; auto. }
    unfold l_connect in E4. inv E4. inv E4. inv E4.
    assert (LA a1 = LA a) by (destruct (dual_is _ _) in E1; [okinj E1; auto|inv E1; okinj E1; apply D in E3; auto]).
    destruct (dual_is _ _) in E4; [okinj E4; auto|inv E4; okinj E4; apply D in E3; change (LA a3 = LA a); congruence].
  - destruct (_ =? _) in E4; [|okinj E4; auto]. inv E4. unfold n_disconnect in E. unfold l_disconnect in E4. inv E. inv E4.
    assert (LA a = LA s5) by (destruct (n_dual a0) in E; [inv E|]; okinj E; auto).
    destruct (l_dual a1) in E4; [inv E4|]; okinj E4; auto.
Qed.

Lemma process_hello_cn s h s' : wf s -> well_formed h -> mergeable s h -> one (known_link s h) -> process_hello s h = Ok s' -> cn_ok s -> cn_ok s'.
Proof.
  intros W (HO & HA) M OL H O. unfold process_hello in H. rewrite HO in H. cbn [negb] in H.
  destruct (h_active h && existsb (Z.eqb (h_if h)) (s_ifs s)) eqn:A; cbn [negb] in H.
  - apply andb_true_iff in A. destruct A as [_ A].
    assert (IF : In (h_if h) (s_ifs s)) by (apply existsb_exists in A; destruct A as (i & A1 & A2); apply Z.eqb_eq in A2; congruence).
    pose proof (start_same s h) as SS. assert (W0 : wf (start s h)) by (eapply same_wf; eauto).
    assert (Q0 : qc s (start s h)).
    { split; unfold start, CN, CL; cbn [set_l set_n s_n s_l set_cur]; [rewrite map_map; reflexivity|apply map_upd; reflexivity]. }
    apply (qc_ok _ _ Q0) in O.
    destruct (pass1_ok h (h_addrs h) (start s h) (start s h) [] W0 (start_p1 s h)) as (Q & P1 & PQ).
    pose proof (qc_pass1 h (h_addrs h) (start s h)) as Q1. pose proof (pass1_no_this h (h_addrs h) (start s h)) as NT.
    assert (ND : snd (pass1 h (start s h) (h_addrs h)) = false).
    { clear - HA. generalize (start s h). induction (h_addrs h) as [|x l IH]; intros t; auto. inversion HA as [|? ? H1 H2]; subst. cbn [pass1].
      destruct H1 as (-> & _). auto. }
    match type of H with (let '(_, _) := ?p in _) = _ => change p with (pass1 h (start s h) (h_addrs h)) in H end.
    destruct (pass1 h (start s h) (h_addrs h)) as [s1 d1]. cbn [fst snd] in *. subst d1.
    rewrite PQ in P1 by auto. cbn [app] in P1. apply (qc_ok _ _ Q1) in O.
    destruct (pass1_end_ok h (start s h) s1 W0 P1) as (s2 & L & ln & N & E2 & P2); [exact IF|eapply mergeable_k; eauto|].
    destruct (pass1_end_cn h (start s h) s1 s2 L ln N W0 P1) as (O2 & U2); auto.
    + eapply mergeable_k; eauto.
    + intros i j Hi Hj. apply OL; apply kl_known; unfold kl in *; [rewrite <- (e_LA _ _ SS)|rewrite <- (e_LA _ _ SS)]; auto.
    + intros T l Hl Fl. rewrite NT in Hl by auto. unfold start in Hl. cbn [set_l s_l] in Hl. apply in_upd in Hl. destruct Hl as (y & Hy & ->).
      destruct (l_if y =? h_if h) eqn:E; [reflexivity|]. apply Z.eqb_neq in E. congruence.
    + rewrite E2 in H. cbn [rbind] in H. destruct (pass2_ok h L ln N (h_addrs h) s2 P2) as (s3 & d & E3 & P3). rewrite E3 in H. cbn [rbind] in H.
      pose proof (pass2_cn h L ln N (h_addrs h) s2 s3 d P2 U2 E3 O2) as O3.
      assert (d = false) as ->.
      { clear - HA E3. revert s2 E3. induction (h_addrs h) as [|x l IH]; intros t E3; cbn [pass2] in E3; [congruence|].
        inversion HA as [|? ? H1 H2]; subst. destruct H1 as (_ & H1). rewrite H1 in E3. inv E3. eapply IH; eauto. }
      eapply pass2_end_cn; eauto.
  - unfold cleanup_error in H. cbn in H. okinj H. exact O.
Qed.
Lemma counting_safe s e : counting_event s e -> safe_event s e.
Proof. destruct e; cbn; auto. intros ((-> & _) & M & _). auto. Qed.
Lemma step_cn s e s' : wf s -> counting_event s e -> step s e = Ok s' -> cn_ok s -> cn_ok s'.
Proof.
  intros W G H O. destruct e; cbn [step] in H.
  - okinj H. destruct (_ <=? _); exact O.
  - okinj H. exact O.
  - destruct G as (G1 & G2 & G3). eapply process_hello_cn; eauto.
  - destruct (find (is_l i) (s_l s)) as [l|] eqn:F; [|okinj H; auto]. destruct (due s (l_sym l)); [|okinj H; auto].
    assert (K : keep s (upd_l s i (l_set_sym None))) by (apply keep_upd_l; [auto|triv]).
    eapply update_status_cn; [apply K|exact H|]. eapply qc_ok; [|exact O]. apply qc_upd_l; intros; repeat split; reflexivity.
  - destruct (find (is_l i) (s_l s)) as [l|] eqn:F; [|okinj H; auto]. destruct (due s (l_heard l)); [|okinj H; auto].
    assert (K : keep s (upd_l s i (l_set_heard None))) by (apply keep_upd_l; [auto|triv]).
    eapply update_status_cn; [apply K|exact H|]. eapply qc_ok; [|exact O]. apply qc_upd_l; intros; repeat split; reflexivity.
  - destruct (find (is_l i) (s_l s)) as [l|] eqn:F; [|okinj H; auto]. destruct (due s (l_vt l)); [|okinj H; auto]. apply find_LK in F.
    assert (K : keep s (upd_l s i (l_set_vt None))) by (apply keep_upd_l; [auto|triv]).
    eapply cb_link_vtime_cn; [apply K| |exact H|]; [rewrite (keep_LK _ _ K); auto|]. eapply qc_ok; [|exact O]. apply qc_upd_l; intros; repeat split; reflexivity.
  - destruct (naddr_get s a) as [x|]; [|okinj H; auto]. destruct (due s (na_lost x)); okinj H; exact O.
  - destruct (find (is_h i a) (s_h s)) as [x|]; [|okinj H; auto]. destruct (due s (h2_vt x)); [|okinj H; auto]. eapply qc_ok; [eapply l2hops_qc; eauto|auto].
  - destruct (find (is_l i) (s_l s)) as [l|] eqn:F; [|okinj H; auto]. eapply update_status_cn; eauto.
  - destruct G.
  - destruct G.
Qed.
Lemma run_cn l : forall s, wf s -> cn_ok s -> guarded counting_event s l -> exists s', run s l = Ok s' /\ wf s' /\ cn_ok s'.
Proof.
  induction l as [|e l IH]; intros s W O G; cbn [run]; [exists s; auto|]. destruct G as (G1 & G2).
  destruct (step_ok s e W (counting_safe _ _ G1)) as (s1 & E & W1). rewrite E. cbn [rbind]. apply IH; auto. exact (step_cn s e s1 W G1 E O).
Qed.

(** ** Links that stop being symmetric *)
Lemma CL_fun s i x y : wf s -> In (i, x) (CL s) -> In (i, y) (CL s) -> x = y.
Proof. intros W. apply NoDup_fst. rewrite CL_fst. apply W. Qed.
Lemma l2hops_gone s p s' : l2hops_remove s p = Ok s' -> forall x, In x (s_h s') -> In x (s_h s) /\ p x = false.
Proof. unfold l2hops_remove. intros H x Hx. inv H. okinj H. cbn in Hx. apply in_del in Hx. auto. Qed.
Lemma not_symmetric_gone s i s' : not_symmetric s i = Ok s' -> CL s' = CL s /\ forall x, In x (s_h s') -> h2_l x <> i.
Proof.
  unfold not_symmetric. intros H. inv H. inv H. inv H. pose proof (l2hops_qc _ _ _ E0) as [_ Q].
  assert (X : CL s' = CL a0 /\ s_h s' = s_h a0) by (destruct (_ =? _) in H; [inv H|]; okinj H; auto).
  destruct X as [X1 X2]. split; [congruence|]. intros x Hx. rewrite X2 in Hx. apply (l2hops_gone _ _ _ E0) in Hx.
  destruct Hx as [_ Hx]. now apply Z.eqb_neq in Hx.
Qed.
Definition fades (s s' : db) : Prop := forall i n n' st, In (i, (n, SYMMETRIC)) (CL s) -> In (i, (n', st)) (CL s') -> st <> SYMMETRIC ->
  forall x, In x (s_h s') -> h2_l x <> i.
Lemma fades_sub s s' : wf s -> (forall x, In x (CL s') -> In x (CL s)) -> fades s s'.
Proof. intros W H i n n' st I1 I2 N. apply H in I2. pose proof (CL_fun _ _ _ _ W I1 I2). congruence. Qed.
Lemma update_status_fades s i s' : wf s -> update_status s i = Ok s' -> fades s s'.
Proof.
  intros W H. unfold update_status in H. inv H. rename a into l, E into El. inv H. rename a into st. inv H. rename a into s2. inv H. rename a into s3. okinj H.
  pose proof (get_l_CL _ _ _ El) as Il. intros j n n' st' I1 I2 N.
  set (s1 := upd_l s i (l_set_status st)) in *. assert (X3 : CL s3 = CL s2).
  { destruct (_ && _) in E1; [|okinj E1; auto]. unfold now_symmetric in E1. inv E1. inv E1. destruct (_ =? _) in E1; okinj E1; reflexivity. }
  assert (X2 : CL s2 = CL s1).
  { destruct (_ && _) in E0; [|okinj E0; auto]. apply not_symmetric_gone in E0. tauto. }
  rewrite X3, X2 in I2. unfold s1 in I2. rewrite CL_set_status in I2. apply in_map_iff in I2. destruct I2 as ([j' [m t]] & I2 & I3). cbn [fst snd] in I2.
  destruct (j' =? i) eqn:B.
  - injection I2 as -> -> ->. apply Z.eqb_eq in B. subst j. pose proof (CL_fun _ _ _ _ W I1 Il) as Q. injection Q as Q1 Q2.
    rewrite <- Q2, Z.eqb_refl in E0. apply Z.eqb_neq in N. rewrite N in E0. cbn [andb negb] in E0. rewrite N, andb_false_r in E1. okinj E1.
    apply not_symmetric_gone in E0. tauto.
  - injection I2 as -> -> ->. pose proof (CL_fun _ _ _ _ W I1 I3). congruence.
Qed.
Lemma set_unsymmetric_CL s i s' : set_unsymmetric s i = Ok s' -> CL s' = CL s.
Proof.
  unfold set_unsymmetric. intros H. inv H. inv H. apply l2hops_qc in H. destruct H as [_ H]. rewrite H.
  assert (Q : qc a0 (upd_l a0 i (l_set_sym None))) by (apply qc_upd_l; intros; repeat split; reflexivity). destruct Q as [_ Q]. rewrite Q.
  destruct (_ =? _) in E0; [|okinj E0; auto]. apply not_symmetric_gone in E0. tauto.
Qed.
Lemma unsym_links_CL ids : forall s s', unsym_links s ids = Ok s' -> CL s' = CL s.
Proof.
  induction ids as [|i ids IH]; intros s s' H; cbn [unsym_links] in H; [okinj H; auto|]. inv H. apply set_unsymmetric_CL in E. apply IH in H. congruence.
Qed.
Lemma step_fades s e s' : wf s -> (forall h, e <> EvHello h) -> step s e = Ok s' -> fades s s'.
Proof.
  intros W NH H. assert (SUB : CL s' = CL s -> fades s s') by (intros Q; apply fades_sub; auto; rewrite Q; auto).
  destruct e; cbn [step] in H; try (exfalso; eapply NH; reflexivity).
  - apply SUB. okinj H. destruct (_ <=? _); reflexivity.
  - apply SUB. okinj H. reflexivity.
  - destruct (find (is_l i) (s_l s)) as [l|] eqn:F; [|okinj H; auto]. destruct (due s (l_sym l)); [|okinj H; auto].
    assert (K : keep s (upd_l s i (l_set_sym None))) by (apply keep_upd_l; [auto|triv]).
    assert (Q : qc s (upd_l s i (l_set_sym None))) by (apply qc_upd_l; intros; repeat split; reflexivity). destruct Q as [_ Q].
    apply update_status_fades in H; [|apply K]. unfold fades in *. rewrite Q in H. exact H.
  - destruct (find (is_l i) (s_l s)) as [l|] eqn:F; [|okinj H; auto]. destruct (due s (l_heard l)); [|okinj H; auto].
    assert (K : keep s (upd_l s i (l_set_heard None))) by (apply keep_upd_l; [auto|triv]).
    assert (Q : qc s (upd_l s i (l_set_heard None))) by (apply qc_upd_l; intros; repeat split; reflexivity). destruct Q as [_ Q].
    apply update_status_fades in H; [|apply K]. unfold fades in *. rewrite Q in H. exact H.
  - destruct (find (is_l i) (s_l s)) as [l|] eqn:F; [|okinj H; auto]. destruct (due s (l_vt l)); [|okinj H; auto].
    assert (Q : qc s (upd_l s i (l_set_vt None))) by (apply qc_upd_l; intros; repeat split; reflexivity). destruct Q as [_ Q].
    apply fades_sub; auto. rewrite <- Q. generalize dependent (upd_l s i (l_set_vt None)). intros t Ht Qt. clear - Ht. unfold cb_link_vtime in Ht.
    inv Ht. inv Ht. inv Ht. rename a0 into s2, a1 into s3.
    assert (X2 : CL s2 = CL t) by (destruct (_ =? _) in E0; [apply not_symmetric_gone in E0; tauto|okinj E0; auto]).
    apply CL_link_remove in E1. destruct E1 as [E1 _].
    assert (X3 : forall x, In x (CL s3) -> In x (CL t)) by (rewrite E1, <- X2; intros x Hx; apply in_del in Hx; tauto).
    destruct (links_of s3 _) in Ht; [|okinj Ht; auto]. unfold neighbor_remove in Ht. inv Ht. apply qc_n_disconnect in E2. destruct E2 as [_ E2].
    inv Ht. okinj Ht. apply CL_links_remove in E3. destruct E3 as [E3 _]. intros x Hx. apply X3. rewrite <- E2.
    change (In x (CL a1)) in Hx. rewrite E3 in Hx. apply in_del in Hx. tauto.
  - destruct (naddr_get s a) as [x|]; [|okinj H; auto]. destruct (due s (na_lost x)); okinj H; auto.
  - destruct (find (is_h i a) (s_h s)) as [x|]; [|okinj H; auto]. destruct (due s (h2_vt x)); [|okinj H; auto]. apply l2hops_qc in H. destruct H; auto.
  - destruct (find (is_l i) (s_l s)) as [l|] eqn:F; [|okinj H; auto]. eapply update_status_fades; eauto.
  - destruct (existsb _ _); [|okinj H; auto]. apply SUB. eapply unsym_links_CL; eauto.
  - destruct (existsb _ _); [|okinj H; auto]. inv H. okinj H. apply SUB. change (CL a = CL s). eapply unsym_links_CL; eauto.
Qed.
