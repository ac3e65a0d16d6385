(** Proofs about the layer-2 database: networks, origins, all calls. *)
From Verif Require Import Base BufLemmas NetaddrModel StrBase L2DataModel L2DataSpec L2KeyProofs L2DbModel L2DbSpec L2DbProofs L2DbProofs2 L2DbProofs3.

Notation shape := (list data * list data * list (netaddr * Z))%type.
Definition mem_key (j : nkey) (l : list nkey) : bool := existsb (fun k => key_eqb k j) l.
Lemma mem_key_in j l : mem_key j l = true <-> In j l.
Proof.
  unfold mem_key. rewrite existsb_exists. split; [intros (x & I0 & E); apply key_ok' in E; subst; exact I0|].
  intros I0. exists j. split; [exact I0|apply eqok_refl, key_ok'].
Qed.
Lemma fold_del_neigh n l : forall d, Inv d -> let d' := fold_left (fun d k => del_neigh d n k) l d in
  Inv d' /\ (forall m, shell d' m = shell d m) /\ (forall m j, ne_at d' m j = if str_eqb n m && mem_key j l then None else ne_at d m j).
Proof.
  induction l as [|k l IH]; intros d IV; cbn [fold_left].
  - cbv zeta. split; [exact IV|]. split; [reflexivity|]. intros m j. rewrite andb_false_r. reflexivity.
  - cbv zeta. assert (Inv (del_neigh d n k) /\ (forall m, shell (del_neigh d n k) m = shell d m) /\
      forall m j, ne_at (del_neigh d n k) m j = if str_eqb n m && key_eqb k j then None else ne_at d m j) as (IV1 & S1 & N1).
    { destruct (ne_at d n k) as [ne|] eqn:E.
      - destruct (del_neigh_spec d n k ne IV E) as [A [B C]]. auto.
      - unfold del_neigh. rewrite E. split; [exact IV|]. split; [reflexivity|]. intros m j. destruct (str_sp n m) as [<-|]; cbn [andb]; [|reflexivity].
        destruct (key_sp k j) as [<-|]; [rewrite E|]; reflexivity. }
    destruct (IH _ IV1) as (IV2 & S2 & N2). split; [exact IV2|]. split; [intros m; rewrite S2; apply S1|]. intros m j. rewrite N2, N1. unfold mem_key; cbn [existsb].
    destruct (str_eqb n m); cbn [andb]; [|reflexivity]. destruct (key_eqb k j); cbn [orb]; [destruct (existsb _ l); reflexivity|reflexivity].
Qed.
Definition drop_peers (t : list (netaddr * Z) -> list (netaddr * Z)) (s : shape) : shape := (fst s, t (snd s)).
Lemma peer_remove_shell d n a p nt : net_at d n = Some nt -> tfind na_eqb (nt_peers nt) a = Some p ->
  (forall m, shell (snd (peer_remove d n a p)) m = if str_eqb n m then option_map (drop_peers (fun t => tdel na_eqb t a)) (shell d m) else shell d m) /\
  (forall m j, ne_at (snd (peer_remove d n a p)) m j = ne_at d m j).
Proof.
  intros E F. unfold peer_remove. rewrite E, F, Z.eqb_refl. cbn [negb snd]. set (f := fun nt0 => mkNet _ _ _ _). set (d1 := upd_net _ _ _). split.
  - intros m. rewrite (shell_nets d1) by reflexivity. unfold d1, shell. rewrite net_at_upd. change (net_at (emit d Removed (OPeer n a)) m) with (net_at d m).
    destruct (str_eqb n m); [|reflexivity]. destruct (net_at d m); reflexivity.
  - intros m j. rewrite (ne_at_nets d1) by reflexivity. unfold d1. rewrite ne_at_upd_net by reflexivity. reflexivity.
Qed.
Lemma fold_peers n l : forall d s, Inv d -> shell d n = Some s -> NoDup (keys l) -> (forall e, In e l -> tfind na_eqb (snd s) (fst e) = Some (snd e)) ->
  let d' := fold_left (fun d e => snd (peer_remove d n (fst e) (snd e))) l d in
  Inv d' /\ (forall m, shell d' m = if str_eqb n m then Some (drop_peers (fun t => fold_left (fun u a => tdel na_eqb u a) (keys l) t) s) else shell d m) /\
  (forall m j, ne_at d' m j = ne_at d m j).
Proof.
  induction l as [|e l IH]; intros d s IV E ND H; cbv zeta; cbn [fold_left].
  - split; [exact IV|]. split; [|reflexivity]. intros m. destruct (str_sp n m) as [<-|]; [|reflexivity]. rewrite E. unfold drop_peers; cbn. destruct s; reflexivity.
  - unfold keys in ND; cbn [map] in ND. inversion ND as [|? ? N1 N2]; subst. destruct (net_at d n) as [nt|] eqn:EN; [|unfold shell in E; rewrite EN in E; discriminate].
    assert (s = shell_of nt) as -> by (unfold shell in E; rewrite EN in E; injection E; auto).
    pose proof (H e (or_introl eq_refl)) as He. cbn [shell_of snd] in He. destruct (peer_remove_shell d n (fst e) (snd e) nt EN He) as [S1 NE1].
    pose proof (S1 n) as Sn. rewrite str_eqb_refl, E in Sn. cbn [option_map] in Sn.
    destruct (IH _ _ (peer_remove_inv d n (fst e) (snd e) IV) Sn N2) as (A & B & C).
    { intros e' I0. unfold drop_peers; cbn [snd]. rewrite tfind_del by exact na_ok. destruct (na_sp (fst e) (fst e')) as [Q|]; [|apply H; right; exact I0].
      exfalso. apply N1. rewrite Q. apply in_map, I0. }
    split; [exact A|]. split.
    + intros m. rewrite B, S1. destruct (str_eqb n m) eqn:Q; [|reflexivity]. unfold drop_peers, keys; cbn [fst snd map fold_left]. reflexivity.
    + intros m j. rewrite C, NE1. reflexivity.
Qed.
Lemma ne_at_keys d n nt j : net_at d n = Some nt -> (In j (keys (nt_neighs nt)) <-> ne_at d n j <> None).
Proof. intros E. unfold ne_at. rewrite E. apply tfind_keys, key_ok'. Qed.
Definition net_gone_at (n : bytes) (d d' : db) : Prop :=
  (forall m, shell d' m = if str_eqb n m then None else shell d m) /\ (forall m j, ne_at d' m j = if str_eqb n m then None else ne_at d m j).
Lemma del_net_spec d n nt : Inv d -> net_at d n = Some nt -> Inv (del_net d n) /\ net_gone_at n d (del_net d n).
Proof.
  intros IV E. unfold del_net. rewrite E. destruct (fold_del_neigh n (keys (nt_neighs nt)) d IV) as (IV1 & S1 & N1). cbv zeta in *.
  set (d1 := fold_left _ (keys (nt_neighs nt)) d) in *. pose proof (S1 n) as S1n. unfold shell at 2 in S1n. rewrite E in S1n. cbn [option_map] in S1n.
  destruct (wf_net d (proj1 IV) n nt E) as (NDn & NDp & _).
  destruct (fold_peers n (nt_peers nt) d1 (shell_of nt) IV1 S1n NDp) as (IV2 & S2 & N2).
  { intros [a v] I0. cbn. apply (in_tfind na_eqb na_ok); assumption. }
  cbv zeta in *. set (d2 := fold_left _ (nt_peers nt) d1) in *.
  assert (shell d2 n = Some (nt_data nt, nt_ndata nt, [])) as S2n.
  { rewrite S2, str_eqb_refl. unfold drop_peers; cbn [shell_of fst snd]. rewrite fold_del_keys. reflexivity. }
  assert (forall j, ne_at d2 n j = None) as N2n.
  { intros j. rewrite N2, N1, str_eqb_refl. cbn [andb]. destruct (mem_key j (keys (nt_neighs nt))) eqn:M; [reflexivity|].
    destruct (ne_at d n j) eqn:Q; [|reflexivity]. exfalso. assert (In j (keys (nt_neighs nt))) as I0 by (apply (ne_at_keys d n nt j E); rewrite Q; discriminate).
    apply mem_key_in in I0. congruence. }
  set (d3 := mkDb _ _ _ _).
  assert (forall m, net_at d3 m = if str_eqb n m then None else net_at d2 m) as NA.
  { intros m. unfold d3, net_at; cbn [emit nets]. rewrite tfind_del by exact str_ok. reflexivity. }
  assert (forall m, shell d3 m = if str_eqb n m then None else shell d2 m) as SH by (intros m; unfold shell; rewrite NA; destruct (str_eqb n m); reflexivity).
  assert (forall m j, ne_at d3 m j = if str_eqb n m then None else ne_at d2 m j) as NE by (intros m j; unfold ne_at; rewrite NA; destruct (str_eqb n m); reflexivity).
  split.
  - destruct IV2 as (W2 & X2 & H2). assert (forall x, has d3 x <-> has d2 x /\ x <> ONet n) as HS.
    { intros [m|m j|m j a|m j a|m a]; cbn [has]; unfold dst_at, ip_at; rewrite ?peer_shell, <- ?shell_net, ?SH, ?NE; destruct (str_sp n m) as [<-|N].
      all: rewrite ?N2n, ?S2n; cbn [snd tfind].
      all: split; [intros Q; split; [easy|congruence]|intros [Q1 Q2]; easy]. }
    split; [|split].
    + constructor.
      * unfold d3; cbn [emit nets]. apply tdel_keys, W2.
      * intros m nt'. rewrite NA. destruct (str_eqb n m); [discriminate|]. apply (wf_net d2 W2).
      * intros m j ne. rewrite NE. destruct (str_eqb n m); [discriminate|]. apply (wf_ne d2 W2).
    + destruct X2 as [X1 X2 X3 X4]. constructor; auto.
      * intros m j a. change (rips d3) with (rips d2). rewrite X2. change (has d2 (OIp m j a) <-> has d3 (OIp m j a)). rewrite HS. split; [intros Q; split; [exact Q|discriminate]|tauto].
      * intros m a. change (gips d3) with (gips d2). rewrite X4. change (has d2 (OPeer m a) <-> has d3 (OPeer m a)). rewrite HS. split; [intros Q; split; [exact Q|discriminate]|tauto].
    + apply heard_removed with (d := d2) (x := ONet n); [exact H2|reflexivity| | |exact HS].
      * cbn [has]. rewrite <- shell_net, S2n. discriminate.
      * intros [m|m j|m j a|m j a|m a] Q P; cbn in P; try discriminate; injection P as ->; cbn [has] in Q.
        -- rewrite N2n in Q. easy.
        -- rewrite peer_shell, S2n in Q. cbn in Q. easy.
  - split; [intros m; rewrite SH, S2|intros m j; rewrite NE, N2, N1]; destruct (str_eqb n m) eqn:Q; try reflexivity. apply S1.
Qed.

(** * Updates of the data of a network *)
Definition wipe_shell (o : Z) (s : shape) : shape := (wipe o (fst (fst s)), wipe o (snd (fst s)), snd s).
Lemma shell_quiet d d' : (forall m, option_map (fun s : shape => snd s) (shell d' m) = option_map (fun s : shape => snd s) (shell d m)) ->
  (forall m j, ne_at d' m j = ne_at d m j) -> forall x, has d' x <-> has d x.
Proof.
  intros S N [m|m j|m j a|m j a|m a]; cbn [has]; unfold dst_at, ip_at; rewrite ?N; try reflexivity.
  - rewrite <- !shell_net. specialize (S m). destruct (shell d' m), (shell d m); cbn in S; try discriminate; easy.
  - rewrite !peer_shell. specialize (S m). destruct (shell d' m), (shell d m); cbn in S; try discriminate; [injection S as ->|]; reflexivity.
Qed.
Lemma wipe_net_spec d n o : Inv d -> let d' := upd_net d n (fun nt => mkNet (wipe o (nt_data nt)) (wipe o (nt_ndata nt)) (nt_neighs nt) (nt_peers nt)) in
  Inv d' /\ (forall m, shell d' m = if str_eqb n m then option_map (wipe_shell o) (shell d m) else shell d m) /\ (forall m j, ne_at d' m j = ne_at d m j).
Proof.
  intros (W & X & H). cbv zeta. set (f := fun nt => mkNet _ _ _ _). set (d' := upd_net d n f).
  assert (forall m, shell d' m = if str_eqb n m then option_map (wipe_shell o) (shell d m) else shell d m) as SH.
  { intros m. unfold d', shell. rewrite net_at_upd. destruct (str_eqb n m); [|reflexivity]. destruct (net_at d m); reflexivity. }
  assert (forall m j, ne_at d' m j = ne_at d m j) as NE by (intros; apply ne_at_upd_net; reflexivity).
  assert (forall x, has d' x <-> has d x) as HS.
  { apply shell_quiet; [|exact NE]. intros m. rewrite SH. destruct (str_eqb n m); [|reflexivity]. destruct (shell d m); reflexivity. }
  split; [|split; assumption]. split; [|split].
  - apply wf_upd_shell; [exact W|reflexivity|]. intros nt E. destruct (wf_net d W n nt E) as (A & B & C & D). split; [exact B|]. split; apply wipe_meta; assumption.
  - apply (idx_has d); auto; [apply upd_net_rips|apply upd_net_gips].
  - apply (heard_same d); auto. apply upd_net_log.
Qed.
Lemma net_cleanup_inv d n o b : Inv d -> Inv (snd (net_cleanup d n o b)).
Proof.
  intros IV. unfold net_cleanup. destruct (net_at d n) as [nt|] eqn:E; [|exact IV]. destruct (wipe_net_spec d n o IV) as (IV1 & _). cbv zeta in *.
  destruct b; [|exact IV1]. set (d1 := upd_net _ _ _) in *. clearbody d1. generalize (existsb (owned o) (nt_data nt) || existsb (owned o) (nt_ndata nt)). generalize (keys (nt_neighs nt)). clear - IV1.
  intros l. revert d1 IV1. induction l as [|k l IH]; intros d1 IV1 c; [exact IV1|]. cbn [fold_left]. destruct (ne_at d1 n k) as [ne|] eqn:E.
  - destruct (neigh_cleanup_spec d1 n k o ne IV1 E) as (d2 & -> & IV2 & _). apply IH, IV2.
  - unfold neigh_cleanup. rewrite E. apply IH, IV1.
Qed.
Lemma net_cleanup_spec d n o nt : Inv d -> net_at d n = Some nt ->
  exists d', net_cleanup d n o false = (existsb (owned o) (nt_data nt) || existsb (owned o) (nt_ndata nt), d') /\ Inv d' /\
    (forall m, shell d' m = if str_eqb n m then option_map (wipe_shell o) (shell d m) else shell d m) /\ (forall m j, ne_at d' m j = ne_at d m j).
Proof.
  intros IV E. unfold net_cleanup. rewrite E. eexists. split; [reflexivity|]. apply wipe_net_spec, IV.
Qed.
Definition novalue (s : shape) : bool := negb (existsb has_value (fst (fst s))) && negb (existsb has_value (snd (fst s))).
Lemma net_commit_spec d n s : Inv d -> shell d n = Some s ->
  Inv (snd (net_commit d n)) /\
  (fst (net_commit d n) = true <-> (forall j, ne_at d n j = None) /\ novalue s = true) /\
  (if fst (net_commit d n) then net_gone_at n d (snd (net_commit d n))
   else (forall m, shell (snd (net_commit d n)) m = shell d m) /\ (forall m j, ne_at (snd (net_commit d n)) m j = ne_at d m j)).
Proof.
  intros IV E. destruct (net_at d n) as [nt|] eqn:EN; [|unfold shell in E; rewrite EN in E; discriminate].
  assert (s = shell_of nt) as -> by (unfold shell in E; rewrite EN in E; injection E; auto). unfold net_commit. rewrite EN.
  assert ((match nt_neighs nt with [] => false | _ => true end) = false <-> forall j, ne_at d n j = None) as EM.
  { split.
    - intros Q j. destruct (ne_at d n j) eqn:F; [|reflexivity]. exfalso. assert (In j (keys (nt_neighs nt))) as I0 by (apply (ne_at_keys d n nt j EN); rewrite F; discriminate).
      destruct (nt_neighs nt); [destruct I0|discriminate].
    - intros Q. destruct (nt_neighs nt) as [|[k ne] t] eqn:F; [reflexivity|]. exfalso. specialize (Q k). unfold ne_at in Q. rewrite EN, F in Q. cbn in Q.
      rewrite (eqok_refl key_eqb) in Q by exact key_ok'. discriminate. }
  unfold novalue; cbn [shell_of fst snd].
  destruct (match nt_neighs nt with [] => false | _ => true end) eqn:A; [|destruct (existsb has_value (nt_data nt)) eqn:B; [|destruct (existsb has_value (nt_ndata nt)) eqn:C]]; cbn [orb fst snd negb andb].
  1-3: (split; [apply emit_changed_inv; [exact IV|cbn; rewrite EN; discriminate]|]; split; [|split; reflexivity]).
  - split; [discriminate|intros [Q _]; apply EM in Q; congruence].
  - split; [discriminate|intros [_ Q]; discriminate].
  - split; [discriminate|intros [_ Q]; discriminate].
  - destruct (del_net_spec d n nt IV EN) as [D1 D2]. split; [exact D1|]. split; [|exact D2]. split; [intros _; split; [apply EM; reflexivity|reflexivity]|reflexivity].
Qed.

(** * net_remove *)
Definition nbr_after (o : Z) (d : db) n k : option neigh := match ne_at d n k with Some ne => after o ne | None => None end.
Definition nbr_touched (o : Z) (d : db) n k : bool := match ne_at d n k with Some ne => touched o ne | None => false end.
Lemma fold_neigh_remove n o l : forall d c, Inv d -> NoDup l ->
  exists d', fold_left (fun '(c, d) k => let '(r, d') := neigh_remove d n k o in (c || r, d')) l (c, d) = (c || existsb (nbr_touched o d n) l, d') /\
    Inv d' /\ (forall m, shell d' m = shell d m) /\ (forall m j, ne_at d' m j = if str_eqb n m && mem_key j l then nbr_after o d m j else ne_at d m j).
Proof.
  induction l as [|k l IH]; intros d c IV ND; cbn [fold_left existsb].
  - exists d. rewrite orb_false_r. split; [reflexivity|]. split; [exact IV|]. split; [reflexivity|]. intros m j. rewrite andb_false_r. reflexivity.
  - inversion ND as [|? ? N1 N2]; subst.
    assert (exists d1, neigh_remove d n k o = (nbr_touched o d n k, d1) /\ Inv d1 /\ becomes n k d d1 (nbr_after o d n k)) as (d1 & -> & IV1 & [B1 B2]).
    { unfold nbr_touched, nbr_after. destruct (ne_at d n k) as [ne|] eqn:E; [apply neigh_remove_spec; assumption|].
      exists d. unfold neigh_remove. rewrite E. split; [reflexivity|]. split; [exact IV|]. split; [reflexivity|]. intros m j.
      destruct (str_sp n m) as [<-|]; cbn [andb]; [|reflexivity]. destruct (key_sp k j) as [<-|]; [rewrite E|]; reflexivity. }
    destruct (IH d1 (c || nbr_touched o d n k) IV1 N2) as (d' & -> & IV' & S' & N'). exists d'.
    assert (forall j, In j l -> ne_at d1 n j = ne_at d n j) as SAME.
    { intros j I0. rewrite B2, there; [reflexivity|]. intros Q. injection Q as ->. easy. }
    split; [|split; [exact IV'|split; [intros m; rewrite S'; apply B1|]]].
    + f_equal. rewrite <- orb_assoc. f_equal. f_equal. clear - SAME. induction l as [|j l IH]; [reflexivity|]. cbn [existsb]. f_equal.
      * unfold nbr_touched. rewrite SAME by (left; reflexivity). reflexivity.
      * apply IH. intros i I0. apply SAME. right; exact I0.
    + intros m j. rewrite N'. unfold mem_key; cbn [existsb]. fold (mem_key j l). destruct (str_sp n m) as [<-|]; cbn [andb].
      * destruct (key_sp k j) as [<-|N]; cbn [orb].
        -- assert (mem_key k l = false) as -> by (apply not_true_is_false; rewrite mem_key_in; exact N1). rewrite B2, here. reflexivity.
        -- unfold nbr_after. rewrite B2, there by congruence. reflexivity.
      * rewrite B2. destruct (str_sp n m); [easy|reflexivity].
Qed.
(** what removing the origin from a network leaves *)
Definition net_touched (o : Z) (d : db) n : Prop :=
  (exists k, nbr_touched o d n k = true) \/ (exists s, shell d n = Some s /\ (existsb (owned o) (fst (fst s)) || existsb (owned o) (snd (fst s)) = true)).
Definition net_dies (o : Z) (d : db) n : Prop :=
  net_touched o d n /\ (forall k, nbr_after o d n k = None) /\ (forall s, shell d n = Some s -> novalue (wipe_shell o s) = true).
Definition origin_gone (o : Z) n (d d' : db) : Prop :=
  (net_dies o d n /\ net_gone_at n d d') \/
  (~ net_dies o d n /\ (forall m, shell d' m = if str_eqb n m then option_map (wipe_shell o) (shell d m) else shell d m) /\
   (forall m j, ne_at d' m j = if str_eqb n m then nbr_after o d m j else ne_at d m j)).
Lemma net_remove_spec d n o s : Inv d -> shell d n = Some s -> Inv (snd (net_remove d n o)) /\ origin_gone o n d (snd (net_remove d n o)).
Proof.
  intros IV E. destruct (net_at d n) as [nt|] eqn:EN; [|unfold shell in E; rewrite EN in E; discriminate].
  assert (s = shell_of nt) as -> by (unfold shell in E; rewrite EN in E; injection E; auto). unfold net_remove. rewrite EN.
  destruct (fold_neigh_remove n o (keys (nt_neighs nt)) d false IV) as (d1 & -> & IV1 & S1 & N1); [apply (wf_net d (proj1 IV) n nt EN)|]. cbn [orb].
  assert (forall j, ne_at d1 n j = nbr_after o d n j) as N1n.
  { intros j. rewrite N1, str_eqb_refl. cbn [andb]. destruct (mem_key j _) eqn:M; [reflexivity|]. unfold nbr_after. destruct (ne_at d n j) eqn:Q; [|reflexivity].
    exfalso. assert (In j (keys (nt_neighs nt))) as I0 by (apply (ne_at_keys d n nt j EN); rewrite Q; discriminate). apply mem_key_in in I0. congruence. }
  assert (shell d1 n = Some (shell_of nt)) as S1n by (rewrite S1; exact E).
  destruct (net_at d1 n) as [nt1|] eqn:EN1; [|unfold shell in S1n; rewrite EN1 in S1n; discriminate].
  assert (shell_of nt1 = shell_of nt) as SO by (unfold shell in S1n; rewrite EN1 in S1n; injection S1n; intros; unfold shell_of; congruence).
  destruct (net_cleanup_spec d1 n o nt1 IV1 EN1) as (d2 & -> & IV2 & S2 & N2).
  assert (existsb (nbr_touched o d n) (keys (nt_neighs nt)) = true <-> exists k, nbr_touched o d n k = true) as TK.
  { rewrite existsb_exists. split; [intros (k & _ & Q); eauto|]. intros (k & Q). exists k. split; [|exact Q]. apply (ne_at_keys d n nt k EN). unfold nbr_touched in Q. destruct (ne_at d n k); discriminate. }
  assert (existsb (owned o) (nt_data nt1) || existsb (owned o) (nt_ndata nt1) = existsb (owned o) (nt_data nt) || existsb (owned o) (nt_ndata nt)) as TD by (unfold shell_of in SO; injection SO as Q1 Q2 Q3; rewrite Q1, Q2; reflexivity).
  rewrite TD.
  assert (existsb (nbr_touched o d n) (keys (nt_neighs nt)) || (existsb (owned o) (nt_data nt) || existsb (owned o) (nt_ndata nt)) = true <-> net_touched o d n) as TT.
  { rewrite orb_true_iff, TK. unfold net_touched. split; (intros [Q|Q]; [left; exact Q|right]).
    - exists (shell_of nt). split; [exact E|exact Q].
    - destruct Q as (s & F & Q). rewrite E in F. injection F as <-. exact Q. }
  assert (forall m j, ne_at d2 m j = if str_eqb n m then nbr_after o d m j else ne_at d m j) as N2n.
  { intros m j. rewrite N2. destruct (str_sp n m) as [<-|N]; [apply N1n|]. rewrite N1. destruct (str_sp n m); [easy|reflexivity]. }
  assert (forall m, shell d2 m = if str_eqb n m then option_map (wipe_shell o) (shell d m) else shell d m) as S2n by (intros m; rewrite S2, S1; reflexivity).
  destruct (existsb (nbr_touched o d n) (keys (nt_neighs nt)) || (existsb (owned o) (nt_data nt) || existsb (owned o) (nt_ndata nt))) eqn:T.
  - assert (net_touched o d n) as NT by (apply TT; reflexivity). assert (shell d2 n = Some (wipe_shell o (shell_of nt))) as E2 by (rewrite S2n, str_eqb_refl, E; reflexivity).
    destruct (net_commit_spec d2 n _ IV2 E2) as (IV3 & C1 & C2). cbn [snd]. split; [exact IV3|]. destruct (fst (net_commit d2 n)) eqn:F.
    + left. destruct C1 as [C1 _]. destruct (C1 eq_refl) as [A B]. split.
      * split; [exact NT|]. split; [intros k; rewrite <- (A k), N2n, str_eqb_refl; reflexivity|]. intros s F'. rewrite E in F'. injection F' as <-. exact B.
      * destruct C2 as [C2 C3]. split; [intros m; rewrite C2, S2n|intros m j; rewrite C3, N2n]; destruct (str_eqb n m); reflexivity.
    + right. destruct C2 as [C2 C3]. split; [|split; [intros m; rewrite C2; apply S2n|intros m j; rewrite C3; apply N2n]].
      intros (_ & A & B). destruct C1 as [_ C1]. assert (false = true) as Q; [|discriminate Q]. apply C1. split; [intros j; rewrite N2n, str_eqb_refl; apply A|]. apply B, E.
  - cbn [snd]. split; [exact IV2|]. right. split; [|split; assumption]. intros (NT & _). apply TT in NT. discriminate.
Qed.

(** * Origins *)
Lemma origin_fold o l : forall d, Inv d -> NoDup l -> (forall n, In n l -> shell d n <> None) ->
  let d' := fold_left (fun d n => snd (net_remove d n o)) l d in
  Inv d' /\
  (forall n, In n l -> (net_dies o d n /\ shell d' n = None /\ forall k, ne_at d' n k = None) \/
                       (~ net_dies o d n /\ shell d' n = option_map (wipe_shell o) (shell d n) /\ forall k, ne_at d' n k = nbr_after o d n k)) /\
  (forall n, ~ In n l -> shell d' n = shell d n /\ forall k, ne_at d' n k = ne_at d n k).
Proof.
  induction l as [|n l IH]; intros d IV ND H; cbv zeta; cbn [fold_left].
  - split; [exact IV|]. split; [intros n []|]. intros n _. split; reflexivity.
  - inversion ND as [|? ? N1 N2]; subst. destruct (shell d n) as [s|] eqn:E; [|exfalso; apply (H n); [left; reflexivity|exact E]].
    destruct (net_remove_spec d n o s IV E) as [IV1 OG]. set (d1 := snd (net_remove d n o)) in *. clearbody d1.
    assert (forall m, m <> n -> shell d1 m = shell d m /\ forall k, ne_at d1 m k = ne_at d m k) as OTHER.
    { intros m N. destruct OG as [(_ & A & B)|(_ & A & B)]; (split; [rewrite A|intros k; rewrite B]); destruct (str_sp n m); congruence. }
    destruct (IH d1 IV1 N2) as (IV' & A & B).
    { intros m I0. assert (m <> n) as Q by (intros ->; easy). destruct (OTHER m Q) as [-> _]. apply H. right; exact I0. }
    split; [exact IV'|]. split.
    + intros m [<-|I0].
      * destruct (B n N1) as [B1 B2]. rewrite B1. destruct OG as [(D & A' & B')|(D & A' & B')]; [left|right]; (split; [exact D|]).
        -- split; [rewrite A', str_eqb_refl; reflexivity|]. intros k. rewrite B2, B', str_eqb_refl. reflexivity.
        -- split; [rewrite A', str_eqb_refl; reflexivity|]. intros k. rewrite B2, B', str_eqb_refl. reflexivity.
      * assert (m <> n) as Q by (intros ->; easy). destruct (OTHER m Q) as [Q1 Q2].
        assert (forall k, nbr_after o d1 m k = nbr_after o d m k) as AE by (intros k; unfold nbr_after; rewrite Q2; reflexivity).
        assert (net_dies o d1 m <-> net_dies o d m) as DE.
        { unfold net_dies, net_touched. rewrite Q1. unfold nbr_touched. split; intros (X & Y & Z0); (split; [|split; [intros k|exact Z0]]).
          - destruct X as [[k X]|X]; [left; exists k; rewrite Q2 in X; exact X|right; exact X].
          - rewrite <- AE. apply Y.
          - destruct X as [[k X]|X]; [left; exists k; rewrite Q2; exact X|right; exact X].
          - rewrite AE. apply Y. }
        destruct (A m I0) as [(D & A1 & A2)|(D & A1 & A2)]; rewrite DE in D; [left|right]; (split; [exact D|]).
        -- split; assumption.
        -- rewrite <- Q1. split; [exact A1|]. intros k. rewrite A2. apply AE.
    + intros m NI. destruct (B m) as [B1 B2]; [intros Q; apply NI; right; exact Q|]. destruct (OTHER m) as [O1 O2]; [intros ->; apply NI; left; reflexivity|].
      split; [rewrite B1; exact O1|]. intros k. rewrite B2. apply O2.
Qed.
Lemma shell_keys d n : In n (keys (nets d)) <-> shell d n <> None.
Proof. rewrite (tfind_keys str_eqb str_ok). unfold shell, net_at. destruct (tfind str_eqb (nets d) n); cbn; easy. Qed.
Lemma origin_remove_spec d o : Inv d ->
  Inv (origin_remove d o) /\
  forall n, (net_dies o d n /\ shell d n <> None /\ shell (origin_remove d o) n = None /\ forall k, ne_at (origin_remove d o) n k = None) \/
            ((~ net_dies o d n \/ shell d n = None) /\ shell (origin_remove d o) n = option_map (wipe_shell o) (shell d n) /\
             forall k, ne_at (origin_remove d o) n k = nbr_after o d n k).
Proof.
  intros IV. destruct (origin_fold o (keys (nets d)) d IV) as (A & B & C); [apply (proj1 IV)|intros n I0; apply shell_keys, I0|].
  fold (origin_remove d o) in *. split; [exact A|]. intros n. destruct (shell d n) eqn:E.
  - assert (In n (keys (nets d))) as I0 by (apply shell_keys; rewrite E; discriminate). rewrite <- E. destruct (B n I0) as [(D & D1 & D2)|(D & D1 & D2)]; [left|right; split; [left; exact D|split; assumption]].
    split; [exact D|]. split; [rewrite E; discriminate|]. split; assumption.
  - right. split; [right; reflexivity|]. destruct (C n) as [C1 C2]; [rewrite shell_keys, E; easy|]. rewrite C1, E. split; [reflexivity|]. intros k. rewrite C2.
    unfold nbr_after. assert (ne_at d n k = None) as -> by (unfold ne_at; apply shell_net in E; rewrite E; reflexivity). reflexivity.
Qed.

(** * All calls *)
Lemma relabel_keys onew old t : keys (map (relabel_org onew old) t) = keys t.
Proof. apply (keys_map (relabel_org onew old)). intros [a v]. unfold relabel_org. cbn. destruct (v =? old); reflexivity. Qed.
Lemma relabel_find onew old t a : tfind na_eqb (map (relabel_org onew old) t) a = option_map (fun v => if v =? old then onew else v) (tfind na_eqb t a).
Proof.
  induction t as [|[b v] t IH]; [reflexivity|]. cbn [map tfind]. unfold relabel_org at 1. cbn [fst snd]. destruct (v =? old) eqn:E; cbn [tfind];
    (destruct (na_eqb b a); [cbn; rewrite E; reflexivity|exact IH]).
Qed.
Lemma relabel_meta onew old l : meta_kept l -> meta_kept (map (relabel_data onew old) l).
Proof.
  intros H. apply Forall_map. eapply Forall_impl; [|exact H]. intros x Hx. unfold relabel_data, owned. destruct (d_org x) as [w|] eqn:E; [|cbn; rewrite E; easy].
  destruct (w =? old); cbn; [intros _; apply Hx; rewrite E; discriminate|exact Hx].
Qed.
Lemma relabel_good onew old ne : ne_good ne -> ne_good (relabel_neigh onew old ne).
Proof. intros (A & B & C). split; [cbn [relabel_neigh ne_dst ne_ips ne_data nt_peers]; rewrite relabel_keys; exact A|]. split; [cbn [relabel_neigh ne_dst ne_ips ne_data nt_peers]; rewrite relabel_keys; exact B|]. apply relabel_meta, C. Qed.
Lemma net_relabel_views d n onew old :
  (forall m, shell (net_relabel d n onew old) m = if str_eqb n m then option_map (fun s : shape =>
      (map (relabel_data onew old) (fst (fst s)), map (relabel_data onew old) (snd (fst s)), map (relabel_org onew old) (snd s))) (shell d m) else shell d m) /\
  (forall m j, ne_at (net_relabel d n onew old) m j = if str_eqb n m then option_map (relabel_neigh onew old) (ne_at d m j) else ne_at d m j).
Proof.
  unfold net_relabel. split; intros m.
  - unfold shell. rewrite net_at_upd. destruct (str_eqb n m); [|reflexivity]. destruct (net_at d m); reflexivity.
  - intros j. unfold ne_at. rewrite net_at_upd. destruct (str_eqb n m); [|reflexivity]. destruct (net_at d m); [|reflexivity]. cbn [option_map nt_neighs]. apply tfind_map.
Qed.
Lemma net_relabel_inv d n onew old : Inv d -> Inv (net_relabel d n onew old).
Proof.
  intros (W & X & H). destruct (net_relabel_views d n onew old) as [SH NE].
  assert (forall x, has (net_relabel d n onew old) x <-> has d x) as HS.
  { intros [m|m j|m j a|m j a|m a]; cbn [has]; unfold dst_at, ip_at; rewrite ?peer_shell, <- ?shell_net, ?SH, ?NE; (destruct (str_eqb n m); [|reflexivity]).
    - destruct (shell d m); cbn; easy.
    - destruct (ne_at d m j); cbn; easy.
    - destruct (ne_at d m j) as [ne|]; [|reflexivity]. cbn. rewrite relabel_find. destruct (tfind na_eqb (ne_dst ne) a); easy.
    - destruct (ne_at d m j) as [ne|]; [|reflexivity]. cbn. rewrite relabel_find. destruct (tfind na_eqb (ne_ips ne) a); easy.
    - destruct (shell d m) as [s|]; [|reflexivity]. cbn. rewrite relabel_find. destruct (tfind na_eqb (snd s) a); easy. }
  split; [|split].
  - unfold net_relabel. apply wf_upd_net; [exact W| |].
    + intros nt E. destruct (wf_net d W n nt E) as (A & B & C & D). split; [cbn [nt_neighs]; rewrite (keys_map (fun e => (fst e, relabel_neigh onew old (snd e)))) by reflexivity; exact A|].
      split; [cbn [relabel_neigh ne_dst ne_ips ne_data nt_peers]; rewrite relabel_keys; exact B|]. split; apply relabel_meta; assumption.
    + intros nt k ne E F. cbn [nt_neighs] in F. rewrite tfind_map in F. destruct (tfind key_eqb (nt_neighs nt) k) as [ne0|] eqn:G; [|discriminate]. cbn in F. injection F as <-.
      apply relabel_good. apply (wf_ne d W n k). unfold ne_at. rewrite E. exact G.
  - apply (idx_has d); auto; unfold net_relabel; [apply upd_net_rips|apply upd_net_gips].
  - apply (heard_same d); auto. unfold net_relabel. apply upd_net_log.
Qed.
Lemma zset_Forall {A} (P : A -> Prop) l i (x : A) l' : zset l i x = Some l' -> Forall P l -> P x -> Forall P l'.
Proof.
  intros Z F Px. unfold zset in Z. destruct ((0 <=? i) && (i <? zlen l)); [|discriminate]. injection Z as <-.
  generalize (Z.to_nat i). clear i. induction F as [|y l Hy Hl IH]; intros [|k]; cbn; constructor; auto.
Qed.
Lemma upd_arr_inv d p l l' : Inv d -> arr_at d p = Some l -> meta_kept l' -> Inv (upd_arr d p l').
Proof.
  intros IV A M. destruct p as [n|n|n k]; cbn [upd_arr arr_at] in *.
  - destruct IV as (W & X & H). assert (forall x, has (upd_net d n (fun nt => mkNet l' (nt_ndata nt) (nt_neighs nt) (nt_peers nt))) x <-> has d x) as HS.
    { apply shell_quiet; [|intros; apply ne_at_upd_net; reflexivity]. intros m. unfold shell. rewrite net_at_upd. destruct (str_eqb n m); [|reflexivity]. destruct (net_at d m); reflexivity. }
    split; [|split].
    + apply wf_upd_shell; [exact W|reflexivity|]. intros nt E. destruct (wf_net d W n nt E) as (B & C & D & E'). split; [exact C|split; assumption].
    + apply (idx_has d); auto; [apply upd_net_rips|apply upd_net_gips].
    + apply (heard_same d); auto. apply upd_net_log.
  - destruct IV as (W & X & H). assert (forall x, has (upd_net d n (fun nt => mkNet (nt_data nt) l' (nt_neighs nt) (nt_peers nt))) x <-> has d x) as HS.
    { apply shell_quiet; [|intros; apply ne_at_upd_net; reflexivity]. intros m. unfold shell. rewrite net_at_upd. destruct (str_eqb n m); [|reflexivity]. destruct (net_at d m); reflexivity. }
    split; [|split].
    + apply wf_upd_shell; [exact W|reflexivity|]. intros nt E. destruct (wf_net d W n nt E) as (B & C & D & E'). split; [exact C|split; assumption].
    + apply (idx_has d); auto; [apply upd_net_rips|apply upd_net_gips].
    + apply (heard_same d); auto. apply upd_net_log.
  - apply quiet_inv; try reflexivity; [exact IV|]. intros ne E. destruct (wf_ne d (proj1 IV) n k ne E) as (B & C & D). split; [exact B|split; [exact C|exact M]].
Qed.
Lemma arr_meta d p l : wf d -> arr_at d p = Some l -> meta_kept l.
Proof.
  intros W. destruct p as [n|n|n k]; cbn; intros A.
  - destruct (net_at d n) as [nt|] eqn:E; [|discriminate]. injection A as <-. apply (wf_net d W n nt E).
  - destruct (net_at d n) as [nt|] eqn:E; [|discriminate]. injection A as <-. apply (wf_net d W n nt E).
  - destruct (ne_at d n k) as [ne|] eqn:E; [|discriminate]. injection A as <-. apply (wf_ne d W n k ne E).
Qed.
Lemma set_value_inv prio d p i o m v d' : Inv d -> set_value prio d p i o m v = Some d' -> Inv d'.
Proof.
  intros IV S. unfold set_value in S. destruct (arr_at d p) as [l|] eqn:A; [|injection S as <-; exact IV].
  destruct (zget l i) as [x|] eqn:G; [|discriminate]. destruct (data_set prio x o m v) as [[c x']|] eqn:D; [|discriminate].
  destruct (zset l i x') as [l'|] eqn:Z; [|discriminate]. injection S as <-. pose proof (arr_meta d p l (proj1 IV) A) as M.
  apply (upd_arr_inv d p l l' IV A). apply (zset_Forall _ l i x' l' Z M). unfold data_set in D.
  assert (d_org x <> None -> d_meta x <> None) as Mx.
  { unfold zget in G. destruct (i <? 0); [discriminate|]. apply nth_error_In in G. unfold meta_kept in M. rewrite Forall_forall in M. apply M, G. }
  destruct m as [mt|]; [|destruct (d_meta x) as [mt|] eqn:Em; [|discriminate]]; cbv iota in D;
    match type of D with (if ?b then _ else _) = _ => destruct b end; injection D as <- <-; solve [cbn; discriminate | rewrite ?Em in *; exact Mx].
Qed.
Lemma shutdown_fold l : forall d, Inv d -> let d' := fold_left (fun d n => del_net d n) l d in
  Inv d' /\ (forall n, In n l -> shell d' n = None) /\ (forall n, shell d n = None -> shell d' n = None).
Proof.
  induction l as [|n l IH]; intros d IV; cbv zeta; cbn [fold_left].
  - split; [exact IV|]. split; [intros n []|auto].
  - assert (Inv (del_net d n) /\ shell (del_net d n) n = None /\ forall m, shell d m = None -> shell (del_net d n) m = None) as (A & B & C).
    { destruct (net_at d n) as [nt|] eqn:E.
      - destruct (del_net_spec d n nt IV E) as [A [B _]]. split; [exact A|]. split; [rewrite B, str_eqb_refl; reflexivity|]. intros m Q. rewrite B. destruct (str_eqb n m); auto.
      - unfold del_net. rewrite E. split; [exact IV|]. split; [apply shell_net, E|auto]. }
    destruct (IH _ A) as (A' & B' & C'). split; [exact A'|]. split; [intros m [<-|I0]; auto|auto].
Qed.
Lemma shutdown_spec d : Inv d -> Inv (shutdown d) /\ forall x, ~ has (shutdown d) x.
Proof.
  intros IV. destruct (shutdown_fold (keys (nets d)) d IV) as (A & B & C). fold (shutdown d) in *. split; [exact A|].
  assert (forall n, net_at (shutdown d) n = None) as N.
  { intros n. apply shell_net. destruct (shell d n) eqn:E; [apply B, shell_keys; rewrite E; discriminate|apply C, E]. }
  intros [m|m j|m j a|m j a|m a]; cbn [has]; unfold dst_at, ip_at, peer_at, ne_at; rewrite N; easy.
Qed.
Lemma step_inv prio d c d' : short_op c -> Inv d -> step prio d c = Some d' -> Inv d'.
Proof.
  intros SO IV. destruct c; cbn [step]; intros S; try (injection S as <-).
  - apply net_add_inv; assumption.
  - destruct (shell d n) as [s|] eqn:E; [apply (net_commit_spec d n s IV E)|]. unfold net_commit. apply shell_net in E. rewrite E. exact IV.
  - apply net_cleanup_inv, IV.
  - destruct (shell d n) as [s|] eqn:E; [apply (net_remove_spec d n o s IV E)|]. unfold net_remove. apply shell_net in E. rewrite E. exact IV.
  - apply net_relabel_inv, IV.
  - apply peer_add_inv, IV.
  - apply peer_remove_inv, IV.
  - apply neigh_add_inv, IV.
  - destruct (ne_at d n k) as [ne|] eqn:E; [apply (neigh_commit_spec d n k ne IV E)|]. unfold neigh_commit. rewrite E. exact IV.
  - destruct (ne_at d n k) as [ne|] eqn:E; [destruct (neigh_cleanup_spec d n k o ne IV E) as (d' & -> & A & _); exact A|]. unfold neigh_cleanup. rewrite E. exact IV.
  - destruct (ne_at d n k) as [ne|] eqn:E; [destruct (neigh_remove_spec d n k o ne IV E) as (d' & -> & A & _); exact A|]. unfold neigh_remove. rewrite E. exact IV.
  - apply quiet_inv; [exact IV| | |].
    + intros ne E. apply relabel_good. apply (wf_ne d (proj1 IV) n k ne E).
    + intros ne a E. cbn. rewrite relabel_find. destruct (tfind na_eqb (ne_dst ne) a); easy.
    + intros ne a E. cbn. rewrite relabel_find. destruct (tfind na_eqb (ne_ips ne) a); easy.
  - apply ip_add_inv, IV.
  - apply ip_remove_inv, IV.
  - apply dst_add_inv, IV.
  - apply dst_remove_inv, IV.
  - exact (set_value_inv prio d p i o m v d' IV S).
  - apply origin_remove_spec, IV.
  - apply shutdown_spec, IV.
Qed.
Lemma inv0 : Inv db0.
Proof.
  split; [|split].
  - constructor; [constructor|intros n nt Q; discriminate|intros n k ne Q; discriminate].
  - constructor; [constructor| |constructor|]; intros; cbn; easy.
  - exists []. split; [reflexivity|]. intros [m|m j|m j a|m j a|m a]; cbn; easy.
Qed.
Lemma run_inv prio cs : forall d d', Forall short_op cs -> Inv d -> run prio d cs = Some d' -> Inv d'.
Proof.
  induction cs as [|c cs IH]; intros d d' F IV R; cbn [run] in R; [injection R as <-; exact IV|].
  destruct (step prio d c) as [d1|] eqn:S; [|discriminate]. exact (IH d1 d' (Forall_inv_tail F) (step_inv prio d c d1 (Forall_inv F) IV S) R).
Qed.
