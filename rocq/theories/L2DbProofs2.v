(** Proofs about the layer-2 database: every call keeps trees and listeners consistent. *)
From Verif Require Import Base BufLemmas NetaddrModel StrBase L2DataModel L2DataSpec L2KeyProofs L2DbModel L2DbSpec L2DbProofs.

(** * Well-formedness *)
Definition ne_good (ne : neigh) : Prop := NoDup (keys (ne_dst ne)) /\ NoDup (keys (ne_ips ne)) /\ meta_kept (ne_data ne).
Definition nt_good (nt : net) : Prop := NoDup (keys (nt_neighs nt)) /\ NoDup (keys (nt_peers nt)) /\ meta_kept (nt_data nt) /\ meta_kept (nt_ndata nt).
Lemma wf_same d d' : nets d' = nets d -> wf d -> wf d'.
Proof.
  intros E [A B C]. constructor.
  - rewrite E. exact A.
  - intros n nt H. rewrite (net_at_nets d d') in H by exact E. eauto.
  - intros n k ne H. rewrite (ne_at_nets d d') in H by exact E. eauto.
Qed.
Lemma wf_emit d e x : wf d -> wf (emit d e x). Proof. apply wf_same. reflexivity. Qed.
Lemma nets_upd_keys d n f : NoDup (keys (nets d)) -> NoDup (keys (nets (upd_net d n f))).
Proof. intros H. unfold upd_net. destruct (net_at d n); [|exact H]. cbn [nets]. apply tset_keys; [exact str_ok|exact H]. Qed.
Lemma wf_upd_net d n f : wf d -> (forall nt, net_at d n = Some nt -> nt_good (f nt)) ->
  (forall nt k ne, net_at d n = Some nt -> tfind key_eqb (nt_neighs (f nt)) k = Some ne -> ne_good ne) -> wf (upd_net d n f).
Proof.
  intros [A B C] H1 H2. constructor.
  - apply nets_upd_keys, A.
  - intros m nt H. rewrite net_at_upd in H. destruct (str_sp n m) as [<-|N]; [|eauto]. destruct (net_at d n) as [nt0|] eqn:E; [|discriminate].
    cbn in H. injection H as <-. apply H1. reflexivity.
  - intros m k ne H. unfold ne_at in H. rewrite net_at_upd in H. destruct (str_sp n m) as [<-|N]; [|eapply (C m); exact H].
    destruct (net_at d n) as [nt0|] eqn:E; [|discriminate]. cbn in H. eapply H2; [reflexivity|exact H].
Qed.
Lemma wf_upd_shell d n f : wf d -> (forall nt, nt_neighs (f nt) = nt_neighs nt) ->
  (forall nt, net_at d n = Some nt -> NoDup (keys (nt_peers (f nt))) /\ meta_kept (nt_data (f nt)) /\ meta_kept (nt_ndata (f nt))) -> wf (upd_net d n f).
Proof.
  intros W H1 H2. apply wf_upd_net; [exact W| |].
  - intros nt E. split; [|apply H2, E]. rewrite H1. apply (wf_net d W n nt E).
  - intros nt k ne E F. rewrite H1 in F. apply (wf_ne d W n k). unfold ne_at. rewrite E. exact F.
Qed.
Lemma wf_upd_neigh d n k f : wf d -> (forall ne, ne_at d n k = Some ne -> ne_good (f ne)) -> wf (upd_neigh d n k f).
Proof.
  intros W H. unfold upd_neigh. apply wf_upd_net; [exact W| |].
  - intros nt E. destruct (wf_net d W n nt E) as (A & B & C & D). destruct (tfind key_eqb (nt_neighs nt) k); split; auto. cbn [nt_neighs].
    apply tset_keys; [exact key_ok'|exact A].
  - intros nt j ne E F. destruct (tfind key_eqb (nt_neighs nt) k) as [ne0|] eqn:G; cbn [nt_neighs] in F.
    + rewrite tfind_set in F by exact key_ok'. destruct (key_sp k j) as [<-|N].
      * injection F as <-. apply H. unfold ne_at. rewrite E. exact G.
      * apply (wf_ne d W n j). unfold ne_at. rewrite E. exact F.
    + apply (wf_ne d W n j). unfold ne_at. rewrite E. exact F.
Qed.

(** * Effects on one neighbor *)
Definition effect (n : bytes) (k : nkey) (d d' : db) (g : neigh -> neigh) : Prop :=
  (forall m, shell d' m = shell d m) /\
  (forall m j, ne_at d' m j = if str_eqb n m && key_eqb k j then option_map g (ne_at d m j) else ne_at d m j).
Lemma effect_upd n k d f : effect n k d (upd_neigh d n k f) f.
Proof. split; intros; [apply shell_upd_neigh|apply ne_at_upd]. Qed.
Lemma effect_nets n k d d1 d' g : nets d' = nets d1 -> effect n k d d1 g -> effect n k d d' g.
Proof. intros E [A B]. split; intros; [rewrite (shell_nets d1 d') by exact E; apply A|rewrite (ne_at_nets d1 d') by exact E; apply B]. Qed.
Lemma effect_trans n k d d1 d2 g h : effect n k d d1 g -> effect n k d1 d2 h -> effect n k d d2 (fun x => h (g x)).
Proof.
  intros [A B] [A' B']. split; [intros m; rewrite A', A; reflexivity|]. intros m j. rewrite B', B.
  destruct (str_eqb n m && key_eqb k j); [|reflexivity]. destruct (ne_at d m j); reflexivity.
Qed.
Lemma effect_ext n k d d' g h ne : ne_at d n k = Some ne -> g ne = h ne -> effect n k d d' g -> effect n k d d' h.
Proof.
  intros E Q [A B]. split; [exact A|]. intros m j. rewrite B. destruct (str_sp n m) as [<-|]; cbn [andb]; [|reflexivity].
  destruct (key_sp k j) as [<-|]; [|reflexivity]. rewrite E. cbn. rewrite Q. reflexivity.
Qed.
Lemma effect_id n k d d' : nets d' = nets d -> effect n k d d' (fun x => x).
Proof.
  intros E. split; intros; [apply shell_nets, E|]. rewrite (ne_at_nets d d') by exact E. destruct (str_eqb n m && key_eqb k j); [|reflexivity]. destruct (ne_at d m j); reflexivity.
Qed.
Lemma effect_at n k d d' g ne : effect n k d d' g -> ne_at d n k = Some ne -> ne_at d' n k = Some (g ne).
Proof. intros [_ B] E. rewrite B, (eqok_refl str_eqb) by exact str_ok. rewrite (eqok_refl key_eqb) by exact key_ok'. cbn. rewrite E. reflexivity. Qed.

Lemma tdel_absent {V} (t : list (netaddr * V)) a : tfind na_eqb t a = None -> tdel na_eqb t a = t.
Proof.
  induction t as [|[y w] t IH]; [reflexivity|]. cbn [tfind]. unfold tdel in *. cbn [filter fst]. destruct (na_eqb y a); [discriminate|]. cbn. intros H. f_equal. auto.
Qed.
Definition no_dst a (ne : neigh) := mkNeigh (ne_data ne) (tdel na_eqb (ne_dst ne) a) (ne_ips ne).
Definition no_ip a (ne : neigh) := mkNeigh (ne_data ne) (ne_dst ne) (tdel na_eqb (ne_ips ne) a).

Lemma dst_remove_effect d n k a : effect n k d (dst_remove d n k a) (no_dst a).
Proof.
  unfold dst_remove. destruct (ne_at d n k) as [ne|] eqn:E.
  - destruct (tfind na_eqb (ne_dst ne) a) eqn:F.
    + eapply effect_ext; [exact E| |eapply effect_trans; [apply (effect_id n k d (emit d Removed (ODst n k a))); reflexivity|apply effect_upd]]. reflexivity.
    + eapply effect_ext; [exact E| |apply effect_id; reflexivity]. unfold no_dst. rewrite tdel_absent by exact F. destruct ne; reflexivity.
  - split; [reflexivity|]. intros m j. destruct (str_sp n m) as [<-|]; cbn [andb]; [|reflexivity]. destruct (key_sp k j) as [<-|]; [rewrite E|]; reflexivity.
Qed.
Lemma ip_remove_effect d n k a o ne : ne_at d n k = Some ne ->
  effect n k d (snd (ip_remove d n k a o)) (match tfind na_eqb (ne_ips ne) a with Some p => if p =? o then no_ip a else fun x => x | None => fun x => x end) /\
  fst (ip_remove d n k a o) = match tfind na_eqb (ne_ips ne) a with Some p => p =? o | None => false end.
Proof.
  intros E. unfold ip_remove. rewrite E. destruct (tfind na_eqb (ne_ips ne) a) as [p|] eqn:F; [|split; [apply effect_id|]; reflexivity].
  destruct (p =? o); cbn [negb fst snd]; [|split; [apply effect_id|]; reflexivity]. split; [|reflexivity].
  match goal with |- effect n k d (mkDb (nets ?y) _ _ _) _ => eapply (effect_nets n k d y); [reflexivity|] end.
  eapply effect_trans; [apply (effect_id n k d (emit d Removed (OIp n k a))); reflexivity|apply effect_upd].
Qed.

(** has of an effect *)
Lemma has_net_effect n k d d' g : effect n k d d' g -> forall x, (forall a, x <> ODst n k a) -> (forall a, x <> OIp n k a) -> (has d' x <-> has d x).
Proof.
  intros [A B] [m|m j|m j a|m j a|m a] H1 H2; cbn [has].
  - rewrite <- !shell_net, A. reflexivity.
  - rewrite B. destruct (str_eqb n m && key_eqb k j); [|reflexivity]. destruct (ne_at d m j); easy.
  - unfold dst_at. rewrite B. destruct (str_sp n m) as [<-|]; cbn [andb]; [|reflexivity]. destruct (key_sp k j) as [<-|]; [|reflexivity]. exfalso. apply (H1 a). reflexivity.
  - unfold ip_at. rewrite B. destruct (str_sp n m) as [<-|]; cbn [andb]; [|reflexivity]. destruct (key_sp k j) as [<-|]; [|reflexivity]. exfalso. apply (H2 a). reflexivity.
  - rewrite !peer_shell, A. reflexivity.
Qed.
Lemma dst_at_effect n k d d' g m j a : effect n k d d' g -> dst_at d' m j a =
  if str_eqb n m && key_eqb k j then match ne_at d m j with Some ne => tfind na_eqb (ne_dst (g ne)) a | None => None end else dst_at d m j a.
Proof. intros [A B]. unfold dst_at. rewrite B. destruct (str_eqb n m && key_eqb k j); [destruct (ne_at d m j)|]; reflexivity. Qed.
Lemma ip_at_effect n k d d' g m j a : effect n k d d' g -> ip_at d' m j a =
  if str_eqb n m && key_eqb k j then match ne_at d m j with Some ne => tfind na_eqb (ne_ips (g ne)) a | None => None end else ip_at d m j a.
Proof. intros [A B]. unfold ip_at. rewrite B. destruct (str_eqb n m && key_eqb k j); [destruct (ne_at d m j)|]; reflexivity. Qed.
Lemma peer_at_effect n k d d' g m a : effect n k d d' g -> peer_at d' m a = peer_at d m a.
Proof. intros [A B]. rewrite !peer_shell, A. reflexivity. Qed.

(** an effect that leaves the sets of destinations and addresses alone changes no tree and tells nothing *)
Lemma effect_quiet n k d d' g : effect n k d d' g -> (forall ne a, ne_at d n k = Some ne -> (tfind na_eqb (ne_dst (g ne)) a = None <-> tfind na_eqb (ne_dst ne) a = None)) ->
  (forall ne a, ne_at d n k = Some ne -> (tfind na_eqb (ne_ips (g ne)) a = None <-> tfind na_eqb (ne_ips ne) a = None)) -> forall x, has d' x <-> has d x.
Proof.
  intros E H1 H2 [m|m j|m j a|m j a|m a]; try (apply (has_net_effect n k d d' g E); discriminate); cbn [has].
  - rewrite (dst_at_effect _ _ _ _ _ _ _ _ E). destruct (str_sp n m) as [<-|]; cbn [andb]; [|reflexivity]. destruct (key_sp k j) as [<-|]; [|reflexivity].
    unfold dst_at. destruct (ne_at d n k) as [ne|] eqn:F; [|reflexivity]. rewrite H1 by reflexivity. reflexivity.
  - rewrite (ip_at_effect _ _ _ _ _ _ _ _ E). destruct (str_sp n m) as [<-|]; cbn [andb]; [|reflexivity]. destruct (key_sp k j) as [<-|]; [|reflexivity].
    unfold ip_at. destruct (ne_at d n k) as [ne|] eqn:F; [|reflexivity]. rewrite H2 by reflexivity. reflexivity.
Qed.
Lemma idx_has d d' : idx d -> rips d' = rips d -> gips d' = gips d -> (forall x, has d' x <-> has d x) -> idx d'.
Proof.
  intros [A B C D] E F H. constructor; rewrite ?E, ?F; auto.
  - intros n k a. rewrite B. symmetry. apply (H (OIp n k a)).
  - intros n a. rewrite D. symmetry. apply (H (OPeer n a)).
Qed.

(** * Destinations *)
Lemma meta_kept_same (ne : neigh) : ne_good ne -> meta_kept (ne_data ne). Proof. intros H. apply H. Qed.
Lemma dst_remove_inv d n k a : Inv d -> Inv (dst_remove d n k a).
Proof.
  intros (W & X & H). pose proof (dst_remove_effect d n k a) as EF. unfold dst_remove in *. destruct (ne_at d n k) as [ne|] eqn:E; [|split; auto].
  destruct (tfind na_eqb (ne_dst ne) a) as [p|] eqn:F; [|split; auto].
  assert (forall m j b, ip_at (upd_neigh (emit d Removed (ODst n k a)) n k (no_dst a)) m j b = ip_at d m j b) as IP.
  { intros m j b. rewrite (ip_at_effect _ _ _ _ _ _ _ _ EF). unfold ip_at. destruct (str_eqb n m && key_eqb k j); [|reflexivity]. destruct (ne_at d m j); reflexivity. }
  split; [|split].
  - apply wf_upd_neigh; [apply wf_emit, W|]. intros ne' E'. change (ne_at d n k = Some ne') in E'. destruct (wf_ne d W n k ne' E') as (A & B & C).
    split; [apply tdel_keys, A|split; [exact B|exact C]].
  - destruct X as [X1 X2 X3 X4]. constructor; rewrite ?upd_neigh_rips, ?upd_neigh_gips; auto.
    + intros m j b. rewrite X2. change (fun ne0 : neigh => {| ne_data := ne_data ne0; ne_dst := tdel na_eqb (ne_dst ne0) a; ne_ips := ne_ips ne0 |}) with (no_dst a).
      rewrite IP. reflexivity.
    + intros m b. rewrite X4. rewrite (peer_at_effect _ _ _ _ _ _ _ EF). reflexivity.
  - eapply heard_removed with (x := ODst n k a); [exact H|rewrite upd_neigh_log; reflexivity| | |].
    + cbn. unfold dst_at. rewrite E, F. discriminate.
    + intros y _ P. destruct y; cbn in P; discriminate.
    + intros y. destruct y as [m|m j|m j b|m j b|m b]; try (rewrite (has_net_effect n k d _ _ EF) by discriminate; split; [intros; split; [assumption|discriminate]|tauto]).
      * cbn [has]. rewrite (dst_at_effect _ _ _ _ _ _ _ _ EF). destruct (str_sp n m) as [<-|N]; cbn [andb]; [destruct (key_sp k j) as [<-|N]|].
        -- unfold dst_at. rewrite E. unfold no_dst; cbn [ne_dst]. rewrite tfind_del by exact na_ok. destruct (na_sp a b) as [<-|N].
           ++ split; [easy|intros [_ Q]; easy].
           ++ split; [intros Q; split; [exact Q|congruence]|tauto].
        -- split; [intros Q; split; [exact Q|congruence]|tauto].
        -- split; [intros Q; split; [exact Q|congruence]|tauto].
      * cbn [has]. change (fun ne0 : neigh => {| ne_data := ne_data ne0; ne_dst := tdel na_eqb (ne_dst ne0) a; ne_ips := ne_ips ne0 |}) with (no_dst a).
        rewrite IP. split; [intros Q; split; [exact Q|discriminate]|tauto].
Qed.
Lemma dst_add_inv d n k a o : Inv d -> Inv (dst_add d n k a o).
Proof.
  intros (W & X & H). unfold dst_add. destruct (ne_at d n k) as [ne|] eqn:E; [|split; auto].
  destruct (tfind na_eqb (ne_dst ne) a) as [p|] eqn:F; [split; auto|].
  set (g := fun ne0 : neigh => {| ne_data := ne_data ne0; ne_dst := tset na_eqb (ne_dst ne0) a o; ne_ips := ne_ips ne0 |}).
  set (d' := emit (upd_neigh d n k g) Added (ODst n k a)).
  assert (effect n k d d' g) as EF by (eapply effect_nets; [reflexivity|apply effect_upd]).
  assert (forall m j b, ip_at d' m j b = ip_at d m j b) as IP.
  { intros m j b. rewrite (ip_at_effect _ _ _ _ _ _ _ _ EF). unfold ip_at. destruct (str_eqb n m && key_eqb k j); [|reflexivity]. destruct (ne_at d m j); reflexivity. }
  split; [|split].
  - apply wf_emit, wf_upd_neigh; [exact W|]. intros ne' E'. destruct (wf_ne d W n k ne' E') as (A & B & C).
    split; [apply tset_keys; [exact na_ok|exact A]|split; [exact B|exact C]].
  - destruct X as [X1 X2 X3 X4]. unfold d'. constructor; cbn [emit rips gips]; rewrite ?upd_neigh_rips, ?upd_neigh_gips; auto.
    + intros m j b. rewrite X2. change (ip_at d m j b <> None <-> ip_at d' m j b <> None). rewrite IP. reflexivity.
    + intros m b. rewrite X4. change (peer_at d m b <> None <-> peer_at d' m b <> None). rewrite (peer_at_effect _ _ _ _ _ _ _ EF). reflexivity.
  - apply heard_added with (d := d) (x := ODst n k a); [exact H|unfold d'; cbn [emit log]; rewrite upd_neigh_log; reflexivity| | |].
    + cbn. unfold dst_at. rewrite E, F. auto.
    + intros q Q. injection Q as <-. cbn. rewrite E. discriminate.
    + intros y. destruct y as [m|m j|m j b|m j b|m b]; try (rewrite (has_net_effect n k d _ _ EF) by discriminate; split; [tauto|intros [?|?]; [assumption|discriminate]]).
      * cbn [has]. rewrite (dst_at_effect _ _ _ _ _ _ _ _ EF). destruct (str_sp n m) as [<-|N]; cbn [andb]; [destruct (key_sp k j) as [<-|N]|].
        -- unfold dst_at. rewrite E. unfold g; cbn [ne_dst]. rewrite tfind_set by exact na_ok. destruct (na_sp a b) as [<-|N].
           ++ split; [right; reflexivity|discriminate].
           ++ split; [tauto|intros [?|?]; [assumption|congruence]].
        -- split; [tauto|intros [?|?]; [assumption|congruence]].
        -- split; [tauto|intros [?|?]; [assumption|congruence]].
      * cbn [has]. rewrite IP. split; [tauto|intros [?|?]; [assumption|discriminate]].
Qed.

(** * Addresses of neighbors *)
Lemma del_rip_in l n k a x : NoDup l -> (In x (del_rip l n k a) <-> In x l /\ x <> (n, k, a)).
Proof.
  induction l as [|[[n' k'] a'] l IH]; intros ND; [cbn; tauto|]. inversion ND as [|? ? N1 N2]; subst. cbn [del_rip].
  destruct (str_eqb n' n && key_eqb k' k && na_eqb a' a) eqn:E.
  - apply andb_true_iff in E. destruct E as [E E3]. apply andb_true_iff in E. destruct E as [E1 E2].
    apply str_ok in E1. apply key_ok' in E2. apply na_ok in E3. subst. cbn [In]. split; [intros Q; split; [auto|intros ->; easy]|].
    intros [[Q|Q] N]; [congruence|exact Q].
  - cbn [In]. rewrite IH by exact N2. split.
    + intros [<-|[Q N]]; [|tauto]. split; [auto|]. intros Q. injection Q as -> -> ->.
      rewrite (eqok_refl str_eqb), (eqok_refl key_eqb), (eqok_refl na_eqb) in E; [discriminate|exact na_ok|exact key_ok'|exact str_ok].
    + intros [[Q|Q] N]; [left; exact Q|right; split; assumption].
Qed.
Lemma del_rip_nodup l n k a : NoDup l -> NoDup (del_rip l n k a).
Proof.
  induction l as [|[[n' k'] a'] l IH]; intros ND; [constructor|]. inversion ND as [|? ? N1 N2]; subst. cbn [del_rip].
  destruct (str_eqb n' n && key_eqb k' k && na_eqb a' a); [exact N2|]. constructor; [|auto]. rewrite del_rip_in by exact N2. tauto.
Qed.
Lemma del_gip_in l n a x : NoDup l -> (In x (del_gip l n a) <-> In x l /\ x <> (n, a)).
Proof.
  induction l as [|[n' a'] l IH]; intros ND; [cbn; tauto|]. inversion ND as [|? ? N1 N2]; subst. cbn [del_gip].
  destruct (str_eqb n' n && na_eqb a' a) eqn:E.
  - apply andb_true_iff in E. destruct E as [E1 E3].
    apply str_ok in E1. apply na_ok in E3. subst. cbn [In]. split; [intros Q; split; [auto|intros ->; easy]|].
    intros [[Q|Q] N]; [congruence|exact Q].
  - cbn [In]. rewrite IH by exact N2. split.
    + intros [<-|[Q N]]; [|tauto]. split; [auto|]. intros Q. injection Q as -> ->.
      rewrite (eqok_refl str_eqb), (eqok_refl na_eqb) in E; [discriminate|exact na_ok|exact str_ok].
    + intros [[Q|Q] N]; [left; exact Q|right; split; assumption].
Qed.
Lemma del_gip_nodup l n a : NoDup l -> NoDup (del_gip l n a).
Proof.
  induction l as [|[n' a'] l IH]; intros ND; [constructor|]. inversion ND as [|? ? N1 N2]; subst. cbn [del_gip].
  destruct (str_eqb n' n && na_eqb a' a); [exact N2|]. constructor; [|auto]. rewrite del_gip_in by exact N2. tauto.
Qed.

Lemma ip_remove_inv d n k a o : Inv d -> Inv (snd (ip_remove d n k a o)).
Proof.
  intros (W & X & H). destruct (ne_at d n k) as [ne|] eqn:E; [|unfold ip_remove; rewrite E; split; auto].
  destruct (ip_remove_effect d n k a o ne E) as [EF _]. unfold ip_remove in *. rewrite E in *.
  destruct (tfind na_eqb (ne_ips ne) a) as [p|] eqn:F; [|split; auto].
  destruct (p =? o); cbn [negb snd] in *; [|split; auto].
  set (d1 := upd_neigh _ _ _ _) in *. set (d' := mkDb _ _ _ _) in *.
  assert (forall m j b, dst_at d' m j b = dst_at d m j b) as DS.
  { intros m j b. rewrite (dst_at_effect _ _ _ _ _ _ _ _ EF). unfold dst_at. destruct (str_eqb n m && key_eqb k j); [|reflexivity]. destruct (ne_at d m j); reflexivity. }
  assert (forall m j b, ip_at d' m j b <> None <-> ip_at d m j b <> None /\ (m, j, b) <> (n, k, a)) as IP.
  { intros m j b. rewrite (ip_at_effect _ _ _ _ _ _ _ _ EF). destruct (str_sp n m) as [<-|N]; cbn [andb]; [destruct (key_sp k j) as [<-|N]|].
    - unfold ip_at. rewrite E. unfold no_ip; cbn [ne_ips]. rewrite tfind_del by exact na_ok. destruct (na_sp a b) as [<-|N].
      + split; [easy|intros [_ Q]; easy].
      + split; [intros Q; split; [exact Q|congruence]|tauto].
    - split; [intros Q; split; [exact Q|congruence]|tauto].
    - split; [intros Q; split; [exact Q|congruence]|tauto]. }
  split; [|split].
  - apply (wf_same d1); [reflexivity|]. apply wf_upd_neigh; [apply wf_emit, W|]. intros ne' E'. change (ne_at d n k = Some ne') in E'. destruct (wf_ne d W n k ne' E') as (A & B & C).
    split; [exact A|split; [apply tdel_keys, B|exact C]].
  - destruct X as [X1 X2 X3 X4]. assert (rips d1 = rips d) as R by (unfold d1; rewrite upd_neigh_rips; reflexivity).
    assert (gips d1 = gips d) as G by (unfold d1; rewrite upd_neigh_gips; reflexivity). assert (rips d' = del_rip (rips d) n k a) as RR by (unfold d'; cbn [rips]; rewrite R; reflexivity).
    assert (gips d' = gips d) as GG by exact G. clearbody d'. constructor; rewrite ?RR, ?GG.
    + apply del_rip_nodup, X1.
    + intros m j b. rewrite IP, <- X2. apply del_rip_in, X1.
    + exact X3.
    + intros m b. rewrite X4, (peer_at_effect _ _ _ _ _ _ _ EF). reflexivity.
  - apply heard_removed with (d := d) (x := OIp n k a); [exact H|unfold d', d1; cbn [log]; rewrite upd_neigh_log; reflexivity| | |].
    + cbn. unfold ip_at. rewrite E, F. discriminate.
    + intros y _ P. destruct y; cbn in P; discriminate.
    + intros y. destruct y as [m|m j|m j b|m j b|m b]; try (rewrite (has_net_effect n k d _ _ EF) by discriminate; split; [intros; split; [assumption|discriminate]|tauto]).
      * cbn [has]. rewrite DS. split; [intros Q; split; [exact Q|discriminate]|tauto].
      * cbn [has]. rewrite IP. split; intros [Q1 Q2]; (split; [exact Q1|congruence]).
Qed.
Lemma ip_add_inv d n k o a : Inv d -> Inv (ip_add d n k o a).
Proof.
  intros (W & X & H). unfold ip_add. destruct (ne_at d n k) as [ne|] eqn:E; [|split; auto].
  set (g := fun ne0 : neigh => {| ne_data := ne_data ne0; ne_dst := ne_dst ne0; ne_ips := tset na_eqb (ne_ips ne0) a o |}).
  set (d1 := upd_neigh d n k g).
  assert (wf d1) as W1.
  { apply wf_upd_neigh; [exact W|]. intros ne' E'. destruct (wf_ne d W n k ne' E') as (A & B & C).
    split; [exact A|split; [apply tset_keys; [exact na_ok|exact B]|exact C]]. }
  destruct (tfind na_eqb (ne_ips ne) a) as [p|] eqn:F.
  - assert (forall x, has d1 x <-> has d x) as HS.
    { apply (effect_quiet n k d d1 g); [apply effect_upd|reflexivity|]. intros ne' b E'. rewrite E in E'. injection E' as <-. unfold g; cbn [ne_ips].
      rewrite tfind_set by exact na_ok. destruct (na_sp a b) as [<-|]; [rewrite F; easy|reflexivity]. }
    split; [exact W1|]. split; [apply (idx_has d); auto; unfold d1; [apply upd_neigh_rips|apply upd_neigh_gips]|].
    apply (heard_same d); auto. apply upd_neigh_log.
  - set (d' := emit _ _ _). assert (effect n k d d' g) as EF by (eapply effect_nets; [|apply effect_upd]; reflexivity).
    assert (forall m j b, dst_at d' m j b = dst_at d m j b) as DS.
    { intros m j b. rewrite (dst_at_effect _ _ _ _ _ _ _ _ EF). unfold dst_at. destruct (str_eqb n m && key_eqb k j); [|reflexivity]. destruct (ne_at d m j); reflexivity. }
    assert (forall m j b, ip_at d' m j b <> None <-> ip_at d m j b <> None \/ (m, j, b) = (n, k, a)) as IP.
    { intros m j b. rewrite (ip_at_effect _ _ _ _ _ _ _ _ EF). destruct (str_sp n m) as [<-|N]; cbn [andb]; [destruct (key_sp k j) as [<-|N]|].
      - unfold ip_at. rewrite E. unfold g; cbn [ne_ips]. rewrite tfind_set by exact na_ok. destruct (na_sp a b) as [<-|N].
        + split; [right; reflexivity|discriminate].
        + split; [tauto|intros [?|?]; [assumption|congruence]].
      - split; [tauto|intros [?|?]; [assumption|congruence]].
      - split; [tauto|intros [?|?]; [assumption|congruence]]. }
    split; [|split].
    + apply (wf_same d1); [reflexivity|exact W1].
    + destruct X as [X1 X2 X3 X4]. assert (rips d1 = rips d) as R by apply upd_neigh_rips. assert (gips d1 = gips d) as G by apply upd_neigh_gips.
      assert (rips d' = rips d ++ [(n, k, a)]) as RR by (unfold d'; cbn [emit rips]; rewrite R; reflexivity).
      assert (gips d' = gips d) as GG by exact G. clearbody d'. constructor; rewrite ?RR, ?GG.
      * assert (~ In (n, k, a) (rips d)) as N by (rewrite X2; unfold ip_at; rewrite E, F; auto). clear - X1 N. induction (rips d) as [|y l IH]; cbn; [repeat constructor; easy|].
        inversion X1; subst. constructor; [|apply IH; [assumption|intros Q; apply N; right; exact Q]]. intros Q. apply in_app_or in Q. destruct Q as [Q|[Q|[]]]; [easy|].
        apply N. left. auto.
      * intros m j b. rewrite IP, in_app_iff, X2. cbn. split; (intros [Q|Q]; [left; exact Q|right]); [destruct Q as [Q|[]]; auto|left; auto].
      * exact X3.
      * intros m b. rewrite X4, (peer_at_effect _ _ _ _ _ _ _ EF). reflexivity.
    + apply heard_added with (d := d) (x := OIp n k a); [exact H|unfold d'; cbn [emit log]; unfold d1; rewrite upd_neigh_log; reflexivity| | |].
      * cbn. unfold ip_at. rewrite E, F. auto.
      * intros q Q. injection Q as <-. cbn. rewrite E. discriminate.
      * intros y. destruct y as [m|m j|m j b|m j b|m b]; try (rewrite (has_net_effect n k d _ _ EF) by discriminate; split; [tauto|intros [?|?]; [assumption|discriminate]]).
        -- cbn [has]. rewrite DS. split; [tauto|intros [?|?]; [assumption|discriminate]].
        -- cbn [has]. rewrite IP. split; (intros [Q|Q]; [left; exact Q|right; congruence]).
Qed.

(** * Addresses of the local peer *)
Lemma has_shell_upd d n f : (forall nt, nt_neighs (f nt) = nt_neighs nt) -> forall x, (forall a, x <> OPeer n a) -> (has (upd_net d n f) x <-> has d x).
Proof.
  intros NE [m|m j|m j a|m j a|m a] H; cbn [has]; unfold dst_at, ip_at; rewrite ?ne_at_upd_net by exact NE; try reflexivity.
  - rewrite net_at_upd. destruct (str_sp n m) as [<-|]; [|reflexivity]. destruct (net_at d n); cbn; easy.
  - unfold peer_at. rewrite net_at_upd. destruct (str_sp n m) as [<-|]; [|reflexivity]. exfalso. apply (H a). reflexivity.
Qed.
Lemma has_nets d d' : nets d' = nets d -> forall x, has d' x <-> has d x.
Proof. intros E. apply has_views; intros; [apply shell_nets, E|apply ne_at_nets, E]. Qed.
Lemma peer_remove_inv d n a o : Inv d -> Inv (snd (peer_remove d n a o)).
Proof.
  intros (W & X & H). unfold peer_remove. destruct (net_at d n) as [nt|] eqn:E; [|split; auto].
  destruct (tfind na_eqb (nt_peers nt) a) as [p|] eqn:F; [|split; auto]. destruct (p =? o); cbn [negb snd]; [|split; auto].
  set (g := fun nt0 => mkNet _ _ _ _). set (d1 := upd_net _ _ _). set (d' := mkDb _ _ _ _).
  assert (forall x, has d' x <-> has d x /\ x <> OPeer n a) as HS.
  { intros x. rewrite (has_nets d1 d') by reflexivity. unfold d1. destruct x as [m|m j|m j b|m j b|m b];
      try (rewrite has_shell_upd by (reflexivity || discriminate); rewrite (has_nets d) by reflexivity; split; [intros; split; [assumption|discriminate]|tauto]).
    cbn [has]. unfold peer_at. rewrite net_at_upd. change (net_at (emit d Removed (OPeer n a)) m) with (net_at d m). destruct (str_sp n m) as [<-|N].
    - rewrite E. cbn [option_map]. unfold g; cbn [nt_peers]. rewrite tfind_del by exact na_ok. destruct (na_sp a b) as [<-|N2].
      + split; [easy|intros [_ Q]; easy].
      + split; [intros Q; split; [exact Q|congruence]|tauto].
    - split; [intros Q; split; [exact Q|congruence]|tauto]. }
  assert (rips d1 = rips d) as R by (unfold d1; rewrite upd_net_rips; reflexivity).
  assert (gips d1 = gips d) as G by (unfold d1; rewrite upd_net_gips; reflexivity).
  split; [|split].
  - apply (wf_same d1); [reflexivity|]. apply wf_upd_shell; [apply wf_emit, W|reflexivity|]. intros nt' E'. change (net_at d n = Some nt') in E'.
    destruct (wf_net d W n nt' E') as (A & B & C & D). split; [apply tdel_keys, B|split; assumption].
  - destruct X as [X1 X2 X3 X4]. assert (gips d' = del_gip (gips d) n a) as GG by (unfold d'; cbn [gips]; rewrite G; reflexivity).
    assert (rips d' = rips d) as RR by exact R. clearbody d'. constructor; rewrite ?RR, ?GG.
    + exact X1.
    + intros m j b. rewrite X2. change (has d (OIp m j b) <-> has d' (OIp m j b)). rewrite HS. split; [intros Q; split; [exact Q|discriminate]|tauto].
    + apply del_gip_nodup, X3.
    + intros m b. rewrite del_gip_in by exact X3. rewrite X4. change (has d (OPeer m b) /\ (m, b) <> (n, a) <-> has d' (OPeer m b)). rewrite HS.
      split; intros [Q1 Q2]; (split; [exact Q1|congruence]).
  - apply heard_removed with (d := d) (x := OPeer n a); [exact H|unfold d', d1; cbn [log]; rewrite upd_net_log; reflexivity| | |exact HS].
    + cbn. unfold peer_at. rewrite E, F. discriminate.
    + intros y _ P. destruct y; cbn in P; discriminate.
Qed.
Lemma peer_add_inv d n o a : Inv d -> Inv (peer_add d n o a).
Proof.
  intros (W & X & H). unfold peer_add. destruct (net_at d n) as [nt|] eqn:E; [|split; auto].
  set (g := fun nt0 => mkNet _ _ _ _). set (d1 := upd_net _ _ _).
  assert (wf d1) as W1.
  { apply wf_upd_shell; [exact W|reflexivity|]. intros nt' E'. destruct (wf_net d W n nt' E') as (A & B & C & D). split; [apply tset_keys; [exact na_ok|exact B]|split; assumption]. }
  assert (forall x, has d1 x <-> has d x \/ x = OPeer n a) as HS.
  { intros x. unfold d1. destruct x as [m|m j|m j b|m j b|m b];
      try (rewrite has_shell_upd by (reflexivity || discriminate); split; [tauto|intros [?|?]; [assumption|discriminate]]).
    cbn [has]. unfold peer_at. rewrite net_at_upd. destruct (str_sp n m) as [<-|N].
    - rewrite E. cbn [option_map]. unfold g; cbn [nt_peers]. rewrite tfind_set by exact na_ok. destruct (na_sp a b) as [<-|N2].
      + split; [right; reflexivity|discriminate].
      + split; [tauto|intros [?|?]; [assumption|congruence]].
    - split; [tauto|intros [?|?]; [assumption|congruence]]. }
  assert (rips d1 = rips d) as R by (unfold d1; rewrite upd_net_rips; reflexivity).
  assert (gips d1 = gips d) as G by (unfold d1; rewrite upd_net_gips; reflexivity).
  destruct (tfind na_eqb (nt_peers nt) a) as [p|] eqn:F.
  - assert (forall x, has d1 x <-> has d x) as HS'.
    { intros x. rewrite HS. split; [intros [Q| ->]; [exact Q|]|tauto]. cbn. unfold peer_at. rewrite E, F. discriminate. }
    split; [exact W1|]. split; [apply (idx_has d); auto|]. apply (heard_same d); auto. apply upd_net_log.
  - set (d' := emit _ _ _). assert (forall x, has d' x <-> has d x \/ x = OPeer n a) as HS' by (intros x; rewrite (has_nets d1) by reflexivity; apply HS).
    split; [|split].
    + apply (wf_same d1); [reflexivity|exact W1].
    + destruct X as [X1 X2 X3 X4]. assert (gips d' = gips d ++ [(n, a)]) as GG by (unfold d'; cbn [emit gips]; rewrite G; reflexivity).
      assert (rips d' = rips d) as RR by exact R. clearbody d'. constructor; rewrite ?RR, ?GG.
      * exact X1.
      * intros m j b. rewrite X2. change (has d (OIp m j b) <-> has d' (OIp m j b)). rewrite HS'. split; [tauto|intros [?|?]; [assumption|discriminate]].
      * assert (~ In (n, a) (gips d)) as N by (rewrite X4; unfold peer_at; rewrite E, F; auto). clear - X3 N. induction (gips d) as [|y l IH]; cbn; [repeat constructor; easy|].
        inversion X3; subst. constructor; [|apply IH; [assumption|intros Q; apply N; right; exact Q]]. intros Q. apply in_app_or in Q. destruct Q as [Q|[Q|[]]]; [easy|].
        apply N. left. auto.
      * intros m b. rewrite in_app_iff, X4. change (has d (OPeer m b) \/ In (m, b) [(n, a)] <-> has d' (OPeer m b)). rewrite HS'. cbn [In].
        split; (intros [Q|Q]; [left; exact Q|right]); [destruct Q as [Q|[]]; congruence|left; congruence].
    + apply heard_added with (d := d) (x := OPeer n a); [exact H|unfold d'; cbn [emit log]; unfold d1; rewrite upd_net_log; reflexivity| | |exact HS'].
      * cbn. unfold peer_at. rewrite E, F. auto.
      * intros q Q. injection Q as <-. cbn. rewrite E. discriminate.
Qed.
