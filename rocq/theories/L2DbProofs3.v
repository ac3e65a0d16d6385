(** Proofs about the layer-2 database: removal of neighbors and networks. *)
From Verif Require Import Base BufLemmas NetaddrModel StrBase L2DataModel L2DataSpec L2KeyProofs L2DbModel L2DbSpec L2DbProofs L2DbProofs2.

Lemma here n k : str_eqb n n && key_eqb k k = true.
Proof. rewrite (eqok_refl str_eqb) by exact str_ok. rewrite (eqok_refl key_eqb) by exact key_ok'. reflexivity. Qed.
Lemma there n k m j : (m, j) <> (n, k) -> str_eqb n m && key_eqb k j = false.
Proof. intros N. destruct (str_sp n m) as [<-|]; [|reflexivity]. destruct (key_sp k j) as [<-|]; [easy|reflexivity]. Qed.

(** * Loops over destinations and addresses *)
Definition with_dst (t : list (netaddr * Z) -> list (netaddr * Z)) (ne : neigh) := mkNeigh (ne_data ne) (t (ne_dst ne)) (ne_ips ne).
Definition with_ips (t : list (netaddr * Z) -> list (netaddr * Z)) (ne : neigh) := mkNeigh (ne_data ne) (ne_dst ne) (t (ne_ips ne)).

Lemma fold_dst_sel n k (p : Z -> bool) l : forall d c, Inv d ->
  exists d', fold_left (fun '(c, d) e => if p (snd e) then (true, dst_remove d n k (fst e)) else (c, d)) l (c, d) = (c || existsb (fun e => p (snd e)) l, d') /\
    Inv d' /\ effect n k d d' (with_dst (fun t => fold_left (fun u e => if p (snd e) then tdel na_eqb u (fst e) else u) l t)).
Proof.
  induction l as [|e l IH]; intros d c IV; cbn [fold_left existsb].
  - exists d. rewrite orb_false_r. split; [reflexivity|]. split; [exact IV|].
    destruct (effect_id n k d d eq_refl) as [A B]. split; [exact A|]. intros m j. rewrite B at 1. destruct (str_eqb n m && key_eqb k j); [|reflexivity].
    destruct (ne_at d m j) as [[]|]; reflexivity.
  - destruct (p (snd e)) eqn:P.
    + destruct (IH (dst_remove d n k (fst e)) true (dst_remove_inv _ _ _ _ IV)) as (d' & -> & IV' & EF). exists d'.
      split; [rewrite orb_true_r; reflexivity|]. split; [exact IV'|].
      exact (effect_trans n k _ _ _ _ _ (dst_remove_effect d n k (fst e)) EF).
    + destruct (IH d c IV) as (d' & -> & IV' & EF). exists d'. split; [reflexivity|]. split; [exact IV'|exact EF].
Qed.
Lemma fold_dst_all n k l : forall d, Inv d ->
  Inv (fold_left (fun d a => dst_remove d n k a) l d) /\
  effect n k d (fold_left (fun d a => dst_remove d n k a) l d) (with_dst (fun t => fold_left (fun u a => tdel na_eqb u a) l t)).
Proof.
  induction l as [|e l IH]; intros d IV; cbn [fold_left].
  - split; [exact IV|]. destruct (effect_id n k d d eq_refl) as [A B]. split; [exact A|]. intros m j. rewrite B at 1. destruct (str_eqb n m && key_eqb k j); [|reflexivity].
    destruct (ne_at d m j) as [[]|]; reflexivity.
  - destruct (IH (dst_remove d n k e) (dst_remove_inv _ _ _ _ IV)) as [IV' EF]. split; [exact IV'|].
    exact (effect_trans n k _ _ _ _ _ (dst_remove_effect d n k e) EF).
Qed.
Lemma fold_ips_sel n k (f : Z -> Z) l : forall d c ne, Inv d -> ne_at d n k = Some ne -> NoDup (keys l) ->
  (forall e, In e l -> tfind na_eqb (ne_ips ne) (fst e) = Some (snd e)) ->
  exists d', fold_left (fun '(c, d) e => let '(r, d') := ip_remove d n k (fst e) (f (snd e)) in (c || r, d')) l (c, d) =
               (c || existsb (fun e => snd e =? f (snd e)) l, d') /\
    Inv d' /\ effect n k d d' (with_ips (fun t => fold_left (fun u e => if snd e =? f (snd e) then tdel na_eqb u (fst e) else u) l t)).
Proof.
  induction l as [|e l IH]; intros d c ne IV E ND H; cbn [fold_left existsb].
  - exists d. rewrite orb_false_r. split; [reflexivity|]. split; [exact IV|].
    destruct (effect_id n k d d eq_refl) as [A B]. split; [exact A|]. intros m j. rewrite B at 1. destruct (str_eqb n m && key_eqb k j); [|reflexivity].
    destruct (ne_at d m j) as [[]|]; reflexivity.
  - destruct (ip_remove_effect d n k (fst e) (f (snd e)) ne E) as [EF FS]. pose proof (ip_remove_inv d n k (fst e) (f (snd e)) IV) as IV1.
    rewrite (H e (or_introl eq_refl)) in EF, FS. destruct (ip_remove d n k (fst e) (f (snd e))) as [r d1] eqn:IR. cbn [fst snd] in *.
    unfold keys in ND. cbn [map] in ND. inversion ND as [|? ? N1 N2]; subst.
    destruct (IH d1 (c || (snd e =? f (snd e))) ((if snd e =? f (snd e) then no_ip (fst e) else fun x => x) ne) IV1 (effect_at n k d d1 _ ne EF E) N2) as (d' & -> & IV' & EF').
    { intros e' I0. specialize (H e' (or_intror I0)). destruct (snd e =? f (snd e)); [|exact H]. unfold no_ip; cbn [ne_ips]. rewrite tfind_del by exact na_ok.
      destruct (na_sp (fst e) (fst e')) as [Q|]; [|exact H]. exfalso. apply N1. rewrite Q. apply in_map, I0. }
    exists d'. split; [rewrite orb_assoc; reflexivity|]. split; [exact IV'|]. pose proof (effect_trans n k _ _ _ _ _ EF EF') as ET.
    eapply effect_ext; [exact E| |exact ET]. cbv beta. destruct (snd e =? f (snd e)); reflexivity.
Qed.
Lemma fold_snd_pair {A} (g : db -> A -> bool * db) l : forall d c,
  fold_left (fun d e => snd (g d e)) l d = snd (fold_left (fun '(c, d) e => let '(r, d') := g d e in (c || r, d')) l (c, d)).
Proof. induction l as [|e l IH]; intros d c; [reflexivity|]. cbn [fold_left]. destruct (g d e) as [r d'] eqn:G. cbn [snd]. apply IH. Qed.

(** * Removal of a neighbor *)
Definition gone (n : bytes) (k : nkey) (d d' : db) : Prop :=
  (forall m, shell d' m = shell d m) /\ (forall m j, ne_at d' m j = if str_eqb n m && key_eqb k j then None else ne_at d m j).
Lemma fold_del_keys (t : list (netaddr * Z)) : fold_left (fun u a => tdel na_eqb u a) (keys t) t = [].
Proof.
  assert (forall (l : list netaddr) (u : list (netaddr * Z)) x, In x l -> tfind na_eqb (fold_left (fun u a => tdel na_eqb u a) l u) x = None) as G1.
  { assert (forall (l : list netaddr) (u : list (netaddr * Z)) x, tfind na_eqb u x = None -> tfind na_eqb (fold_left (fun u a => tdel na_eqb u a) l u) x = None) as G0.
    { induction l as [|y l IH]; intros u x H; [exact H|]. cbn [fold_left]. apply IH. rewrite tfind_del by exact na_ok. rewrite H. destruct (na_eqb y x); reflexivity. }
    induction l as [|y l IH]; intros u x I0; [destruct I0|]. destruct I0 as [<-|I0]; cbn [fold_left]; [|apply IH, I0]. apply G0. rewrite tfind_del by exact na_ok. rewrite na_eqb_refl. reflexivity. }
  assert (forall (l : list netaddr) (u : list (netaddr * Z)) x, tfind na_eqb (fold_left (fun u a => tdel na_eqb u a) l u) x <> None -> tfind na_eqb u x <> None) as G2.
  { induction l as [|y l IH]; intros u x H; [exact H|]. cbn [fold_left] in H. apply IH in H. rewrite tfind_del in H by exact na_ok. destruct (na_eqb y x); [easy|exact H]. }
  apply (tempty na_eqb na_ok). intros x. destruct (tfind na_eqb (fold_left _ _ _) x) eqn:E; [|reflexivity]. exfalso.
  assert (In x (keys t)) as I0 by (apply (tfind_keys na_eqb na_ok); apply (G2 (keys t)); rewrite E; discriminate). rewrite (G1 _ t _ I0) in E. discriminate.
Qed.
Lemma del_neigh_spec d n k ne : Inv d -> ne_at d n k = Some ne -> Inv (del_neigh d n k) /\ gone n k d (del_neigh d n k).
Proof.
  intros IV E. unfold del_neigh. rewrite E. destruct (fold_dst_all n k (keys (ne_dst ne)) d IV) as [IV1 EF1].
  set (d1 := fold_left _ (keys (ne_dst ne)) d) in *. pose proof (effect_at _ _ _ _ _ _ EF1 E) as E1.
  assert (wf d) as W by apply IV. destruct (wf_ne d W n k ne E) as (ND & NI & _).
  rewrite (fold_snd_pair (fun d e => ip_remove d n k (fst e) (snd e)) (ne_ips ne) d1 false).
  destruct (fold_ips_sel n k (fun v => v) (ne_ips ne) d1 false _ IV1 E1 NI) as (d2 & -> & IV2 & EF2).
  { intros [a v] I0. unfold with_dst; cbn [ne_ips fst snd]. apply (in_tfind na_eqb na_ok); assumption. }
  cbn [snd]. pose proof (effect_trans n k _ _ _ _ _ EF1 EF2) as ET. pose proof (effect_at _ _ _ _ _ _ ET E) as E2.
  assert (with_ips (fun t => fold_left (fun u e => if snd e =? snd e then tdel na_eqb u (fst e) else u) (ne_ips ne) t)
     (with_dst (fun t => fold_left (fun u a => tdel na_eqb u a) (keys (ne_dst ne)) t) ne) = mkNeigh (ne_data ne) [] []) as HE.
  { unfold with_ips, with_dst; cbn [ne_data ne_dst ne_ips]. rewrite fold_del_keys. f_equal.
    rewrite (fold_del na_eqb na_ok (fun v => v =? v)) by exact NI. clear. induction (ne_ips ne) as [|[a v] l IH]; [reflexivity|]. cbn [filter snd]. rewrite Z.eqb_refl. exact IH. }
  cbv beta in E2, ET. rewrite HE in E2. set (d3 := upd_net _ _ _).
  assert (forall m, shell d3 m = shell d2 m) as SH.
  { intros m. unfold d3, shell. rewrite net_at_upd. destruct (str_sp n m) as [<-|]; [|reflexivity]. change (net_at (emit d2 Removed (ONeigh n k)) n) with (net_at d2 n).
    destruct (net_at d2 n); reflexivity. }
  assert (forall m j, ne_at d3 m j = if str_eqb n m && key_eqb k j then None else ne_at d2 m j) as NE.
  { intros m j. unfold d3, ne_at. rewrite net_at_upd. destruct (str_sp n m) as [<-|]; cbn [andb]; [|reflexivity]. change (net_at (emit d2 Removed (ONeigh n k)) n) with (net_at d2 n).
    destruct (net_at d2 n) as [nt|]; cbn [option_map nt_neighs]; [|destruct (key_eqb k j); reflexivity]. rewrite tfind_del by exact key_ok'. reflexivity. }
  split.
  - destruct IV2 as (W2 & X2 & H2). assert (forall x, has d3 x <-> has d2 x /\ x <> ONeigh n k) as HS.
    { intros [m|m j|m j a|m j a|m a]; cbn [has]; unfold dst_at, ip_at; rewrite ?NE.
      - rewrite <- !shell_net, SH. split; [intros Q; split; [exact Q|discriminate]|tauto].
      - destruct (str_sp n m) as [<-|N]; cbn [andb]; [destruct (key_sp k j) as [<-|N]|]; (split; [intros Q; split; [easy|congruence]|intros [Q1 Q2]; easy]).
      - destruct (str_sp n m) as [<-|N]; cbn [andb]; [destruct (key_sp k j) as [<-|N]|]; [rewrite E2; cbn; tauto| |]; (split; [intros Q; split; [exact Q|discriminate]|tauto]).
      - destruct (str_sp n m) as [<-|N]; cbn [andb]; [destruct (key_sp k j) as [<-|N]|]; [rewrite E2; cbn; tauto| |]; (split; [intros Q; split; [exact Q|discriminate]|tauto]).
      - rewrite !peer_shell, SH. split; [intros Q; split; [exact Q|discriminate]|tauto]. }
    split; [|split].
    + apply wf_upd_net; [apply wf_emit, W2| |].
      * intros nt E'. change (net_at d2 n = Some nt) in E'. destruct (wf_net d2 W2 n nt E') as (A & B). split; [apply tdel_keys, A|exact B].
      * intros nt j ne' E' F. change (net_at d2 n = Some nt) in E'. cbn [nt_neighs] in F. rewrite tfind_del in F by exact key_ok'. destruct (key_eqb k j); [discriminate|].
        apply (wf_ne d2 W2 n j). unfold ne_at. rewrite E'. exact F.
    + assert (rips d3 = rips d2) as R by (unfold d3; rewrite upd_net_rips; reflexivity). assert (gips d3 = gips d2) as G by (unfold d3; rewrite upd_net_gips; reflexivity).
      destruct X2 as [X1 X2 X3 X4]. constructor; rewrite ?R, ?G; auto.
      * intros m j a. rewrite X2. change (has d2 (OIp m j a) <-> has d3 (OIp m j a)). rewrite HS. split; [intros Q; split; [exact Q|discriminate]|tauto].
      * intros m a. rewrite X4. change (has d2 (OPeer m a) <-> has d3 (OPeer m a)). rewrite HS. split; [intros Q; split; [exact Q|discriminate]|tauto].
    + apply heard_removed with (d := d2) (x := ONeigh n k); [exact H2|unfold d3; rewrite upd_net_log; reflexivity| | |exact HS].
      * cbn. rewrite E2. discriminate.
      * intros [m|m j|m j a|m j a|m a] Q P; cbn in P; try discriminate; injection P as -> ->; cbn [has] in Q; [unfold dst_at in Q|unfold ip_at in Q]; rewrite E2 in Q; cbn in Q; easy.
  - split; [intros m; rewrite SH; apply ET|]. intros m j. rewrite NE. destruct (str_eqb n m && key_eqb k j) eqn:B; [reflexivity|]. destruct ET as [_ ET]. rewrite ET, B. reflexivity.
Qed.

(** * neigh_remove *)
Definition hollow (ne : neigh) : bool := match ne_dst ne, ne_ips ne with [], [] => negb (existsb has_value (ne_data ne)) | _, _ => false end.
Definition strip (o : Z) (ne : neigh) : neigh :=
  mkNeigh (wipe o (ne_data ne)) (filter (fun e => negb (snd e =? o)) (ne_dst ne)) (filter (fun e => negb (snd e =? o)) (ne_ips ne)).
Definition touched (o : Z) (ne : neigh) : bool :=
  existsb (fun e => snd e =? o) (ne_dst ne) || existsb (fun e => snd e =? o) (ne_ips ne) || existsb (owned o) (ne_data ne).
Definition after (o : Z) (ne : neigh) : option neigh :=
  if touched o ne then (if hollow (strip o ne) then None else Some (strip o ne)) else Some ne.
(** the neighbor has become [r], everything else is as before *)
Definition becomes (n : bytes) (k : nkey) (d d' : db) (r : option neigh) : Prop :=
  (forall m, shell d' m = shell d m) /\ (forall m j, ne_at d' m j = if str_eqb n m && key_eqb k j then r else ne_at d m j).
Lemma effect_becomes n k d d' g ne : ne_at d n k = Some ne -> effect n k d d' g -> becomes n k d d' (Some (g ne)).
Proof.
  intros E [A B]. split; [exact A|]. intros m j. rewrite B. destruct (str_sp n m) as [<-|]; cbn [andb]; [|reflexivity]. destruct (key_sp k j) as [<-|]; [rewrite E|]; reflexivity.
Qed.
Lemma wipe_meta o l : meta_kept l -> meta_kept (wipe o l).
Proof.
  intros H. unfold wipe, meta_kept. apply Forall_map. eapply Forall_impl; [|exact H]. intros x Hx. cbn. destruct (owned o x); [cbn; easy|exact Hx].
Qed.
Lemma wipe_id o l : existsb (owned o) l = false -> wipe o l = l.
Proof.
  unfold wipe. induction l as [|x l IH]; [reflexivity|]. cbn [existsb map]. intros H. apply orb_false_iff in H. destruct H as [H1 H2]. rewrite H1, IH by exact H2. reflexivity.
Qed.
Lemma keep_id {A} (p : A -> bool) l : existsb p l = false -> filter (fun e => negb (p e)) l = l.
Proof.
  induction l as [|x l IH]; [reflexivity|]. cbn [existsb filter]. intros H. apply orb_false_iff in H. destruct H as [H1 H2]. rewrite H1. cbn. rewrite IH by exact H2. reflexivity.
Qed.
Lemma strip_id o ne : touched o ne = false -> strip o ne = ne.
Proof.
  unfold touched, strip. intros H. apply orb_false_iff in H. destruct H as [H H3]. apply orb_false_iff in H. destruct H as [H1 H2].
  rewrite wipe_id by exact H3. rewrite (keep_id (fun e => snd e =? o)) by exact H1. rewrite (keep_id (fun e => snd e =? o)) by exact H2. destruct ne; reflexivity.
Qed.
(** an update of a neighbor that keeps its sets *)
Lemma quiet_inv d n k f : Inv d -> (forall ne, ne_at d n k = Some ne -> ne_good (f ne)) ->
  (forall ne a, ne_at d n k = Some ne -> (tfind na_eqb (ne_dst (f ne)) a = None <-> tfind na_eqb (ne_dst ne) a = None)) ->
  (forall ne a, ne_at d n k = Some ne -> (tfind na_eqb (ne_ips (f ne)) a = None <-> tfind na_eqb (ne_ips ne) a = None)) -> Inv (upd_neigh d n k f).
Proof.
  intros (W & X & H) G D I0. pose proof (effect_quiet n k d _ f (effect_upd n k d f) D I0) as HS. split; [|split].
  - apply wf_upd_neigh; assumption.
  - apply (idx_has d); auto; [apply upd_neigh_rips|apply upd_neigh_gips].
  - apply (heard_same d); auto. apply upd_neigh_log.
Qed.
Lemma neigh_cleanup_spec d n k o ne : Inv d -> ne_at d n k = Some ne ->
  exists d', neigh_cleanup d n k o = (existsb (owned o) (ne_data ne), d') /\ Inv d' /\
    effect n k d d' (fun ne => mkNeigh (wipe o (ne_data ne)) (ne_dst ne) (ne_ips ne)).
Proof.
  intros IV E. unfold neigh_cleanup. rewrite E. eexists. split; [reflexivity|]. split; [|apply effect_upd]. apply quiet_inv; try reflexivity; [exact IV|].
  intros ne' E'. destruct (wf_ne d (proj1 IV) n k ne' E') as (A & B & C). split; [exact A|]. split; [exact B|]. apply wipe_meta, C.
Qed.
Lemma emit_changed_inv d x : Inv d -> has d x -> Inv (emit d Changed x).
Proof.
  intros (W & X & H) P. split; [apply wf_emit, W|]. split; [apply (idx_has d); try reflexivity; exact X|].
  apply (heard_changed d _ x); auto. intros y. reflexivity.
Qed.
Lemma neigh_commit_spec d n k ne : Inv d -> ne_at d n k = Some ne ->
  Inv (snd (neigh_commit d n k)) /\ becomes n k d (snd (neigh_commit d n k)) (if hollow ne then None else Some ne) /\ fst (neigh_commit d n k) = hollow ne.
Proof.
  intros IV E. unfold neigh_commit. rewrite E.
  replace ((match ne_dst ne, ne_ips ne with [], [] => false | _, _ => true end) || existsb has_value (ne_data ne)) with (negb (hollow ne))
    by (unfold hollow; destruct (ne_dst ne); [destruct (ne_ips ne); [cbn [orb]; apply negb_involutive|reflexivity]|reflexivity]).
  destruct (hollow ne); cbn [negb snd fst].
  - destruct (del_neigh_spec d n k ne IV E) as [A B]. split; [exact A|]. split; [exact B|reflexivity].
  - split; [apply emit_changed_inv; [exact IV|cbn; rewrite E; discriminate]|]. split; [|reflexivity]. split; [reflexivity|]. intros m j.
    change (ne_at d m j = if str_eqb n m && key_eqb k j then Some ne else ne_at d m j).
    destruct (str_sp n m) as [<-|]; cbn [andb]; [|reflexivity]. destruct (key_sp k j) as [<-|]; [rewrite E|]; reflexivity.
Qed.
Lemma becomes_after n k d d1 d2 g r ne : ne_at d n k = Some ne -> effect n k d d1 g -> becomes n k d1 d2 r -> becomes n k d d2 r.
Proof.
  intros E [A B] [A' B']. split; [intros m; rewrite A'; apply A|]. intros m j. rewrite B', B. destruct (str_eqb n m && key_eqb k j); reflexivity.
Qed.
Lemma neigh_remove_spec d n k o ne : Inv d -> ne_at d n k = Some ne ->
  exists d', neigh_remove d n k o = (touched o ne, d') /\ Inv d' /\ becomes n k d d' (after o ne).
Proof.
  intros IV E. unfold neigh_remove. rewrite E. destruct (wf_ne d (proj1 IV) n k ne E) as (ND & NI & _).
  destruct (fold_dst_sel n k (fun v => v =? o) (ne_dst ne) d false IV) as (d1 & -> & IV1 & EF1). cbn [orb].
  destruct (fold_ips_sel n k (fun _ => o) (ne_ips ne) d1 (existsb (fun e => snd e =? o) (ne_dst ne)) _ IV1 (effect_at _ _ _ _ _ _ EF1 E) NI) as (d2 & -> & IV2 & EF2).
  { intros [a v] I0. unfold with_dst; cbn [ne_ips fst snd]. apply (in_tfind na_eqb na_ok); assumption. }
  pose proof (effect_trans n k _ _ _ _ _ EF1 EF2) as ET. pose proof (effect_at _ _ _ _ _ _ ET E) as E2.
  destruct (neigh_cleanup_spec d2 n k o _ IV2 E2) as (d3 & -> & IV3 & EF3). pose proof (effect_trans n k _ _ _ _ _ ET EF3) as ET3. cbv beta in ET3.
  assert (effect n k d d3 (fun _ => strip o ne)) as ES.
  { eapply effect_ext; [exact E| |exact ET3]. cbv beta. unfold strip, with_ips, with_dst; cbn [ne_data ne_dst ne_ips].
    rewrite (fold_del na_eqb na_ok (fun v => v =? o)) by exact ND. rewrite (fold_del na_eqb na_ok (fun v => v =? o)) by exact NI. reflexivity. }
  unfold with_ips, with_dst; cbn [ne_data]. fold (touched o ne). unfold after. destruct (touched o ne) eqn:T.
  - pose proof (effect_at _ _ _ _ _ _ ES E) as E3. cbv beta in E3. destruct (neigh_commit_spec d3 n k _ IV3 E3) as (A & B & _). eexists. split; [reflexivity|]. split; [exact A|].
    exact (becomes_after n k d d3 _ _ _ ne E ES B).
  - exists d3. split; [reflexivity|]. split; [exact IV3|]. pose proof (effect_becomes _ _ _ _ _ _ E ES) as Q. rewrite strip_id in Q by exact T. exact Q.
Qed.

(** * Creation *)
Lemma fresh_meta_neigh : meta_kept fresh_neigh_data.
Proof. unfold fresh_neigh_data, meta_kept. apply Forall_map. apply Forall_forall. intros x _. cbn. easy. Qed.
Lemma fresh_meta_net : meta_kept fresh_net_data.
Proof. unfold fresh_net_data, meta_kept. apply Forall_map. apply Forall_forall. intros x _. cbn. easy. Qed.
Lemma neigh_add_inv d n k : Inv d -> Inv (neigh_add d n k).
Proof.
  intros (W & X & H). unfold neigh_add. destruct (negb (is_mac (k_addr k))); [split; auto|]. destruct (net_at d n) as [nt|] eqn:E; [|split; auto].
  destruct (tfind key_eqb (nt_neighs nt) k) eqn:F; [split; auto|]. set (f := fun nt0 => mkNet _ _ _ _). set (d' := emit _ _ _).
  assert (forall m, shell d' m = shell d m) as SH.
  { intros m. unfold d'. rewrite (shell_nets (upd_net d n f)) by reflexivity. unfold shell. rewrite net_at_upd. destruct (str_sp n m) as [<-|]; [|reflexivity]. destruct (net_at d n); reflexivity. }
  assert (forall m j, ne_at d' m j = if str_eqb n m && key_eqb k j then Some (mkNeigh fresh_neigh_data [] []) else ne_at d m j) as NE.
  { intros m j. unfold d'. rewrite (ne_at_nets (upd_net d n f)) by reflexivity. unfold ne_at. rewrite net_at_upd. destruct (str_sp n m) as [<-|]; cbn [andb]; [|reflexivity].
    rewrite E. unfold f; cbn [option_map nt_neighs]. rewrite tfind_set by exact key_ok'. reflexivity. }
  assert (ne_at d n k = None) as N0 by (unfold ne_at; rewrite E; exact F).
  assert (forall x, has d' x <-> has d x \/ x = ONeigh n k) as HS.
  { intros [m|m j|m j a|m j a|m a]; cbn [has]; unfold dst_at, ip_at; rewrite ?NE.
    - rewrite <- !shell_net, SH. split; [tauto|intros [?|?]; [assumption|discriminate]].
    - destruct (str_sp n m) as [<-|N]; cbn [andb]; [destruct (key_sp k j) as [<-|N]|].
      + split; [right; reflexivity|discriminate].
      + split; [tauto|intros [?|?]; [assumption|congruence]].
      + split; [tauto|intros [?|?]; [assumption|congruence]].
    - destruct (str_sp n m) as [<-|N]; cbn [andb]; [destruct (key_sp k j) as [<-|N]|]; [rewrite N0; cbn; split; [tauto|intros [?|?]; [tauto|discriminate]]| |];
        (split; [tauto|intros [?|?]; [assumption|discriminate]]).
    - destruct (str_sp n m) as [<-|N]; cbn [andb]; [destruct (key_sp k j) as [<-|N]|]; [rewrite N0; cbn; split; [tauto|intros [?|?]; [tauto|discriminate]]| |];
        (split; [tauto|intros [?|?]; [assumption|discriminate]]).
    - rewrite !peer_shell, SH. split; [tauto|intros [?|?]; [assumption|discriminate]]. }
  split; [|split].
  - apply wf_emit, wf_upd_net; [exact W| |].
    + intros nt' E'. destruct (wf_net d W n nt' E') as (A & B). split; [apply tset_keys; [exact key_ok'|exact A]|exact B].
    + intros nt' j ne E' F'. unfold f in F'; cbn [nt_neighs] in F'. rewrite tfind_set in F' by exact key_ok'. destruct (key_eqb k j).
      * injection F' as <-. split; [constructor|]. split; [constructor|]. exact fresh_meta_neigh.
      * apply (wf_ne d W n j). unfold ne_at. rewrite E'. exact F'.
  - assert (rips d' = rips d) as R by (unfold d'; cbn [emit rips]; apply upd_net_rips). assert (gips d' = gips d) as G by (unfold d'; cbn [emit gips]; apply upd_net_gips).
    destruct X as [X1 X2 X3 X4]. constructor; rewrite ?R, ?G; auto.
    + intros m j a. rewrite X2. change (has d (OIp m j a) <-> has d' (OIp m j a)). rewrite HS. split; [tauto|intros [?|?]; [assumption|discriminate]].
    + intros m a. rewrite X4. change (has d (OPeer m a) <-> has d' (OPeer m a)). rewrite HS. split; [tauto|intros [?|?]; [assumption|discriminate]].
  - apply heard_added with (d := d) (x := ONeigh n k); [exact H|unfold d'; cbn [emit log]; rewrite upd_net_log; reflexivity| | |exact HS].
    + cbn. rewrite N0. auto.
    + intros q Q. injection Q as <-. cbn. rewrite E. discriminate.
Qed.
Lemma net_add_inv d n : zlen n <= 15 -> Inv d -> Inv (net_add d n).
Proof.
  intros L (W & X & H). unfold net_add. destruct (net_at d n) as [nt|] eqn:E; [split; auto|]. cbv zeta.
  rewrite firstn_all2 by (unfold zlen in L; lia). rewrite E. set (d' := emit _ _ _).
  assert (forall m, net_at d' m = if str_eqb n m then Some (mkNet fresh_net_data fresh_neigh_data [] []) else net_at d m) as NA.
  { intros m. unfold d', net_at; cbn [emit nets]. rewrite tfind_set by exact str_ok. reflexivity. }
  assert (forall x, has d' x <-> has d x \/ x = ONet n) as HS.
  { intros [m|m j|m j a|m j a|m a]; cbn [has]; unfold dst_at, ip_at, peer_at, ne_at; rewrite ?NA; destruct (str_sp n m) as [<-|N]; rewrite ?E; cbn [nt_neighs nt_peers tfind];
      first [split; [right; reflexivity|discriminate] | split; [tauto|intros [?|?]; [tauto|congruence]]]. }
  split; [|split].
  - constructor.
    + unfold d'; cbn [emit nets]. apply tset_keys; [exact str_ok|apply W].
    + intros m nt. rewrite NA. destruct (str_sp n m) as [<-|N]; [|apply (wf_net d W)]. intros Q. injection Q as <-. cbn.
      split; [constructor|]. split; [constructor|]. split; [exact fresh_meta_net|exact fresh_meta_neigh].
    + intros m j ne. unfold ne_at. rewrite NA. destruct (str_sp n m) as [<-|N]; [cbn; discriminate|]. apply (wf_ne d W m j).
  - destruct X as [X1 X2 X3 X4]. constructor; auto.
    + intros m j a. change (rips d') with (rips d). rewrite X2. change (has d (OIp m j a) <-> has d' (OIp m j a)). rewrite HS. split; [tauto|intros [?|?]; [assumption|discriminate]].
    + intros m a. change (gips d') with (gips d). rewrite X4. change (has d (OPeer m a) <-> has d' (OPeer m a)). rewrite HS. split; [tauto|intros [?|?]; [assumption|discriminate]].
  - apply heard_added with (d := d) (x := ONet n); [exact H|reflexivity| | |exact HS].
    + cbn. rewrite E. auto.
    + intros q Q. discriminate.
Qed.
