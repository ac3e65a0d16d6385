(** Proofs about the layer-2 database: tables, views, primitives. *)
From Verif Require Import Base BufLemmas NetaddrModel StrBase L2DataModel L2DataSpec L2KeyProofs L2DbModel L2DbSpec.

(** * Equality *)
Definition eqok {K} (eqb : K -> K -> bool) : Prop := forall a b, eqb a b = true <-> a = b.
Lemma str_ok : eqok str_eqb. Proof. intros a b. apply str_eqb_eq. Qed.
Lemma na_ok : eqok na_eqb. Proof. intros a b. apply na_eqb_eq. Qed.
Lemma key_ok' : eqok key_eqb.
Proof.
  intros [a l i] [a' l' i']. unfold key_eqb; cbn [k_addr k_len k_lid]. rewrite !andb_true_iff, Z.eqb_eq, str_eqb_eq, na_eqb_eq.
  split; [intros [[-> ->] ->]; reflexivity|intros H; injection H as -> -> ->; auto].
Qed.
Lemma eqok_refl {K} (eqb : K -> K -> bool) a : eqok eqb -> eqb a a = true.
Proof. intros H. apply H. reflexivity. Qed.
Lemma eqok_spec {K} (eqb : K -> K -> bool) a b : eqok eqb -> reflect (a = b) (eqb a b).
Proof. intros H. destruct (eqb a b) eqn:E; constructor; [apply H, E|intros ->; rewrite eqok_refl in E by exact H; discriminate]. Qed.
Lemma str_sp a b : reflect (a = b) (str_eqb a b). Proof. apply eqok_spec, str_ok. Qed.
Lemma na_sp a b : reflect (a = b) (na_eqb a b). Proof. apply eqok_spec, na_ok. Qed.
Lemma key_sp a b : reflect (a = b) (key_eqb a b). Proof. apply eqok_spec, key_ok'. Qed.
Lemma obj_ok : eqok obj_eqb.
Proof.
  intros [n|n k|n k a|n k a|n a] [m|m j|m j b|m j b|m b]; cbn [obj_eqb]; rewrite ?andb_true_iff, ?str_eqb_eq, ?na_eqb_eq, ?(key_ok' _ _);
    (split; [intros H; try discriminate; intuition congruence|intros H; try discriminate; injection H; intros; subst; auto]).
Qed.
Lemma obj_sp a b : reflect (a = b) (obj_eqb a b). Proof. apply eqok_spec, obj_ok. Qed.

(** * Tables *)
Section Tab.
Context {K V : Type} (eqb : K -> K -> bool) (OK : eqok eqb).
Implicit Types (t : list (K * V)) (k : K).
Lemma tfind_set t k v x : tfind eqb (tset eqb t k v) x = if eqb k x then Some v else tfind eqb t x.
Proof.
  induction t as [|[y w] t IH]; [reflexivity|]. cbn [tset]. destruct (eqok_spec eqb y k OK) as [->|N].
  - cbn [tfind]. destruct (eqb k x); reflexivity.
  - cbn [tfind]. rewrite IH. destruct (eqok_spec eqb y x OK) as [->|N2]; [|reflexivity].
    destruct (eqok_spec eqb k x OK) as [->|]; [easy|reflexivity].
Qed.
Lemma tfind_del t k x : tfind eqb (tdel eqb t k) x = if eqb k x then None else tfind eqb t x.
Proof.
  unfold tdel. induction t as [|[y w] t IH]; [destruct (eqb k x); reflexivity|]. cbn [filter fst]. destruct (eqok_spec eqb y k OK) as [->|N]; cbn [negb].
  - rewrite IH. cbn [tfind]. destruct (eqb k x) eqn:E; reflexivity.
  - cbn [tfind]. rewrite IH. destruct (eqok_spec eqb y x OK) as [->|N2]; [|reflexivity]. destruct (eqok_spec eqb k x OK) as [->|]; [easy|reflexivity].
Qed.
Lemma tfind_in t k v : tfind eqb t k = Some v -> In (k, v) t.
Proof.
  induction t as [|[y w] t IH]; [discriminate|]. cbn [tfind]. destruct (eqok_spec eqb y k OK) as [->|N]; [intros H; injection H as ->; left; reflexivity|].
  intros H. right. auto.
Qed.
Lemma in_tfind t k v : NoDup (keys t) -> In (k, v) t -> tfind eqb t k = Some v.
Proof.
  induction t as [|[y w] t IH]; intros ND I0; [destruct I0|]. cbn [keys map fst] in ND. inversion ND as [|? ? N1 N2]; subst. cbn [tfind].
  destruct I0 as [E|I0]; [injection E as -> ->; rewrite eqok_refl by exact OK; reflexivity|].
  destruct (eqok_spec eqb y k OK) as [->|N]; [|auto]. exfalso. apply N1. change k with (fst (k, v)). apply in_map, I0.
Qed.
Lemma tfind_keys t k : In k (keys t) <-> tfind eqb t k <> None.
Proof.
  unfold keys. induction t as [|[y w] t IH]; [cbn; easy|]. cbn [map fst tfind]. destruct (eqok_spec eqb y k OK) as [->|N].
  - split; [discriminate|left; reflexivity].
  - rewrite <- IH. split; [intros [?|?]; [easy|assumption]|right; assumption].
Qed.
Lemma tset_keys t k v : NoDup (keys t) -> NoDup (keys (tset eqb t k v)).
Proof.
  unfold keys. induction t as [|[y w] t IH]; intros ND; [repeat constructor; easy|]. cbn [tset]. cbn [map fst] in ND. inversion ND as [|? ? N1 N2]; subst.
  destruct (eqok_spec eqb y k OK) as [->|N]; cbn [map fst]; constructor; auto.
  change (~ In y (keys (tset eqb t k v))). rewrite tfind_keys, tfind_set. destruct (eqok_spec eqb k y OK) as [->|_]; [easy|].
  rewrite <- tfind_keys. exact N1.
Qed.
Lemma filter_keys (f : K * V -> bool) t : NoDup (keys t) -> NoDup (keys (filter f t)).
Proof.
  unfold keys. induction t as [|[y w] t IH]; intros ND; [constructor|]. cbn [map fst] in ND. inversion ND as [|? ? N1 N2]; subst. cbn [filter].
  destruct (f (y, w)); [|auto]. cbn [map fst]. constructor; [|auto]. intros Q. apply N1. apply in_map_iff in Q. destruct Q as ([y' w'] & E & Q).
  cbn in E. subst y'. apply filter_In in Q. change y with (fst (y, w')). apply in_map. tauto.
Qed.
Lemma tdel_keys t k : NoDup (keys t) -> NoDup (keys (tdel eqb t k)).
Proof. apply filter_keys. Qed.
Lemma tfind_filter (p : V -> bool) t k : NoDup (keys t) ->
  tfind eqb (filter (fun e => p (snd e)) t) k = match tfind eqb t k with Some v => if p v then Some v else None | None => None end.
Proof.
  unfold keys. induction t as [|[y w] t IH]; intros ND; [reflexivity|]. cbn [map fst] in ND. inversion ND as [|? ? N1 N2]; subst. cbn [filter snd tfind].
  destruct (eqok_spec eqb y k OK) as [->|N].
  - destruct (p w); [cbn [tfind]; rewrite eqok_refl by exact OK; reflexivity|]. rewrite IH by exact N2.
    destruct (tfind eqb t k) eqn:E; [|reflexivity]. exfalso. apply N1. apply tfind_in in E. change k with (fst (k, v)). apply in_map, E.
  - destruct (p w); [cbn [tfind]|]; rewrite ?IH by exact N2; [|reflexivity]. destruct (eqok_spec eqb y k OK); [easy|reflexivity].
Qed.
Lemma tempty t : (forall k, tfind eqb t k = None) -> t = [].
Proof. destruct t as [|[y w] t]; [reflexivity|]. intros H. specialize (H y). cbn in H. rewrite eqok_refl in H by exact OK. discriminate. Qed.
Lemma tfind_map {W} (g : V -> W) t k : tfind eqb (map (fun e => (fst e, g (snd e))) t) k = option_map g (tfind eqb t k).
Proof. induction t as [|[y w] t IH]; [reflexivity|]. cbn [map fst snd tfind]. destruct (eqb y k); [reflexivity|exact IH]. Qed.
(** deleting the entries selected by [p] one after the other *)
Lemma fold_del (p : V -> bool) t : NoDup (keys t) ->
  fold_left (fun u e => if p (snd e) then tdel eqb u (fst e) else u) t t = filter (fun e => negb (p (snd e))) t.
Proof.
  intros ND.
  assert (forall (l u : list (K * V)), fold_left (fun u e => if p (snd e) then tdel eqb u (fst e) else u) l u
            = filter (fun x => negb (existsb (fun e => p (snd e) && eqb (fst x) (fst e)) l)) u) as G.
  { induction l as [|e l IH]; intros u.
    - cbn. clear. induction u as [|x u IH]; [reflexivity|]. cbn. f_equal. exact IH.
    - cbn [fold_left existsb]. rewrite IH. destruct (p (snd e)); cbn [andb orb]; [|reflexivity].
      unfold tdel. clear. induction u as [|x u IH]; [reflexivity|]. cbn [filter]. destruct (eqb (fst x) (fst e)); cbn [negb orb]; [exact IH|].
      cbn [filter]. destruct (negb (existsb _ l)); rewrite IH; reflexivity. }
  rewrite G. apply filter_ext_in. intros [k v] I0. cbn [fst snd]. f_equal. destruct (p v) eqn:E.
  - apply existsb_exists. exists (k, v). split; [exact I0|]. cbn. rewrite E, eqok_refl by exact OK. reflexivity.
  - apply not_true_is_false. intros Q. apply existsb_exists in Q. destruct Q as ([k' v'] & I1 & Q). cbn [fst snd] in Q. apply andb_true_iff in Q.
    destruct Q as [Q1 Q2]. apply OK in Q2. subst k'. pose proof (in_tfind t k v ND I0). pose proof (in_tfind t k v' ND I1). congruence.
Qed.
Lemma keys_map {W} (f : K * V -> K * W) t : (forall e, fst (f e) = fst e) -> keys (map f t) = keys t.
Proof. intros H. unfold keys. rewrite map_map. apply map_ext. exact H. Qed.
Lemma tset_same t k v : tfind eqb t k = Some v -> tset eqb t k v = t.
Proof.
  induction t as [|[y w] t IH]; [discriminate|]. cbn [tfind tset]. destruct (eqok_spec eqb y k OK) as [->|N]; [intros H; injection H as ->; reflexivity|].
  intros H. f_equal. auto.
Qed.
End Tab.

(** * Views *)
Definition shell_of (nt : net) : list data * list data * list (netaddr * Z) := (nt_data nt, nt_ndata nt, nt_peers nt).
Definition shell (d : db) (n : bytes) := option_map shell_of (net_at d n).
Definition setshell (d : db) n (s : list data * list data * list (netaddr * Z)) : db :=
  upd_net d n (fun nt => mkNet (fst (fst s)) (snd (fst s)) (nt_neighs nt) (snd s)).

Lemma net_at_upd d n f m : net_at (upd_net d n f) m = if str_eqb n m then option_map f (net_at d m) else net_at d m.
Proof.
  unfold upd_net. destruct (net_at d n) as [nt|] eqn:E.
  - unfold net_at in *; cbn [nets]. rewrite tfind_set by exact str_ok. destruct (str_sp n m) as [<-|N]; [rewrite E; reflexivity|reflexivity].
  - destruct (str_sp n m) as [<-|N]; [rewrite E; reflexivity|reflexivity].
Qed.
Lemma net_at_nets d d' m : nets d' = nets d -> net_at d' m = net_at d m.
Proof. unfold net_at. intros ->. reflexivity. Qed.
Lemma ne_at_nets d d' m k : nets d' = nets d -> ne_at d' m k = ne_at d m k.
Proof. unfold ne_at, net_at. intros ->. reflexivity. Qed.
Lemma shell_nets d d' m : nets d' = nets d -> shell d' m = shell d m.
Proof. unfold shell, net_at. intros ->. reflexivity. Qed.
Lemma upd_net_log d n f : log (upd_net d n f) = log d. Proof. unfold upd_net. destruct (net_at d n); reflexivity. Qed.
Lemma upd_net_rips d n f : rips (upd_net d n f) = rips d. Proof. unfold upd_net. destruct (net_at d n); reflexivity. Qed.
Lemma upd_net_gips d n f : gips (upd_net d n f) = gips d. Proof. unfold upd_net. destruct (net_at d n); reflexivity. Qed.
Lemma upd_neigh_log d n k f : log (upd_neigh d n k f) = log d. Proof. apply upd_net_log. Qed.
Lemma upd_neigh_rips d n k f : rips (upd_neigh d n k f) = rips d. Proof. apply upd_net_rips. Qed.
Lemma upd_neigh_gips d n k f : gips (upd_neigh d n k f) = gips d. Proof. apply upd_net_gips. Qed.

Lemma ne_at_upd d n k f m j : ne_at (upd_neigh d n k f) m j = if str_eqb n m && key_eqb k j then option_map f (ne_at d m j) else ne_at d m j.
Proof.
  unfold ne_at, upd_neigh. rewrite net_at_upd. destruct (str_sp n m) as [<-|N]; cbn [andb]; [|reflexivity].
  destruct (net_at d n) as [nt|]; cbn [option_map]; [|destruct (key_eqb k j); reflexivity].
  destruct (tfind key_eqb (nt_neighs nt) k) as [ne|] eqn:E; cbn [nt_neighs].
  - rewrite tfind_set by exact key_ok'. destruct (key_sp k j) as [<-|]; [rewrite E; reflexivity|reflexivity].
  - destruct (key_sp k j) as [<-|]; [rewrite E; reflexivity|reflexivity].
Qed.
Lemma shell_upd_neigh d n k f m : shell (upd_neigh d n k f) m = shell d m.
Proof.
  unfold shell, upd_neigh. rewrite net_at_upd. destruct (str_sp n m) as [<-|N]; [|reflexivity]. destruct (net_at d n) as [nt|]; [|reflexivity].
  cbn [option_map]. destruct (tfind key_eqb (nt_neighs nt) k); reflexivity.
Qed.
(** an update that leaves the neighbors alone *)
Lemma ne_at_upd_net d n f m j : (forall nt, nt_neighs (f nt) = nt_neighs nt) -> ne_at (upd_net d n f) m j = ne_at d m j.
Proof. intros H. unfold ne_at. rewrite net_at_upd. destruct (str_sp n m) as [<-|N]; [|reflexivity]. destruct (net_at d n); [cbn [option_map]; rewrite H|]; reflexivity. Qed.
Lemma ne_at_net d n k ne : ne_at d n k = Some ne -> exists nt, net_at d n = Some nt /\ tfind key_eqb (nt_neighs nt) k = Some ne.
Proof. unfold ne_at. destruct (net_at d n) as [nt|]; [eauto|discriminate]. Qed.
Lemma shell_net d n : shell d n = None <-> net_at d n = None.
Proof. unfold shell. destruct (net_at d n); split; cbn; easy. Qed.
Lemma peer_shell d n a : peer_at d n a = match shell d n with Some s => tfind na_eqb (snd s) a | None => None end.
Proof. unfold peer_at, shell. destruct (net_at d n); reflexivity. Qed.

(** * The invariant *)
Definition meta_kept (l : list data) : Prop := Forall (fun x => d_org x <> None -> d_meta x <> None) l.
Record wf (d : db) : Prop := {
  wf_nets : NoDup (keys (nets d));
  wf_net : forall n nt, net_at d n = Some nt -> NoDup (keys (nt_neighs nt)) /\ NoDup (keys (nt_peers nt)) /\ meta_kept (nt_data nt) /\ meta_kept (nt_ndata nt);
  wf_ne : forall n k ne, ne_at d n k = Some ne -> NoDup (keys (ne_dst ne)) /\ NoDup (keys (ne_ips ne)) /\ meta_kept (ne_data ne) }.
Record idx (d : db) : Prop := {
  ix_rn : NoDup (rips d); ix_r : forall n k a, In (n, k, a) (rips d) <-> ip_at d n k a <> None;
  ix_gn : NoDup (gips d); ix_g : forall n a, In (n, a) (gips d) <-> peer_at d n a <> None }.
Definition heard (d : db) : Prop := exists l, listen [] (log d) = Some l /\ forall x, In x l <-> has d x.
Definition Inv (d : db) : Prop := wf d /\ idx d /\ heard d.

(** the listener *)
Lemma listen_app es fs : forall l, listen l (es ++ fs) = match listen l es with Some l' => listen l' fs | None => None end.
Proof. induction es as [|e es IH]; intros l; [reflexivity|]. cbn [app listen]. destruct (hear l e); [apply IH|reflexivity]. Qed.
Lemma knows_in l x : knows l x = true <-> In x l.
Proof.
  unfold knows. rewrite existsb_exists. split.
  - intros (y & I0 & E). apply obj_ok in E. subst. exact I0.
  - intros I0. exists x. split; [exact I0|apply eqok_refl, obj_ok].
Qed.
Lemma heard_added d d' x : heard d -> log d' = log d ++ [(Added, x)] -> ~ has d x -> (forall p, parent x = Some p -> has d p) ->
  (forall y, has d' y <-> has d y \/ y = x) -> heard d'.
Proof.
  intros (l & L & H) E N P S. exists (x :: l). rewrite E, listen_app, L. cbn [listen hear fst snd]. split.
  - assert (knows l x = false) as -> by (apply not_true_is_false; rewrite knows_in, H; exact N). cbn [negb andb].
    destruct (parent x) as [p|]; [|reflexivity]. assert (knows l p = true) as -> by (rewrite knows_in, H; auto). reflexivity.
  - intros y. rewrite S. cbn [In]. rewrite H. split; intros [A|A]; auto.
Qed.
Lemma heard_removed d d' x : heard d -> log d' = log d ++ [(Removed, x)] -> has d x -> (forall y, has d y -> parent y = Some x -> False) ->
  (forall y, has d' y <-> has d y /\ y <> x) -> heard d'.
Proof.
  intros (l & L & H) E N P S. exists (filter (fun y => negb (obj_eqb x y)) l). rewrite E, listen_app, L. cbn [listen hear fst snd]. split.
  - assert (knows l x = true) as -> by (rewrite knows_in, H; exact N). cbn [andb].
    assert (existsb (part_of x) l = false) as ->; [|reflexivity].
    apply not_true_is_false. intros Q. apply existsb_exists in Q. destruct Q as (y & I0 & Q). unfold part_of in Q. destruct (parent y) as [p|] eqn:PY; [|discriminate].
    apply obj_ok in Q. subst p. apply (P y); [apply H, I0|exact PY].
  - intros y. rewrite filter_In, S, H, negb_true_iff. destruct (obj_sp x y) as [->|Ny]; [|split; intros [A B]; split; auto].
    split; intros [A B]; [discriminate|easy].
Qed.
Lemma heard_changed d d' x : heard d -> log d' = log d ++ [(Changed, x)] -> has d x -> (forall y, has d' y <-> has d y) -> heard d'.
Proof.
  intros (l & L & H) E N S. exists l. rewrite E, listen_app, L. cbn [listen hear fst snd].
  assert (knows l x = true) as -> by (rewrite knows_in, H; exact N). split; [reflexivity|]. intros y. rewrite S. apply H.
Qed.
Lemma heard_same d d' : heard d -> log d' = log d -> (forall y, has d' y <-> has d y) -> heard d'.
Proof. intros (l & L & H) E S. exists l. rewrite E. split; [exact L|]. intros y. rewrite S. apply H. Qed.

(** an object is there only together with what it is part of *)
Lemma has_parent d x p : has d x -> parent x = Some p -> has d p.
Proof.
  destruct x as [n|n k|n k a|n k a|n a]; cbn [has parent]; intros H E; try discriminate; injection E as <-; cbn [has].
  - unfold ne_at in H. destruct (net_at d n); easy.
  - unfold dst_at in H. destruct (ne_at d n k); easy.
  - unfold ip_at in H. destruct (ne_at d n k); easy.
  - unfold peer_at in H. destruct (net_at d n); easy.
Qed.
(** [has] depends on the views only *)
Lemma has_views d d' : (forall n, shell d' n = shell d n) -> (forall n k, ne_at d' n k = ne_at d n k) -> forall x, has d' x <-> has d x.
Proof.
  intros S N [n|n k|n k a|n k a|n a]; cbn [has]; unfold dst_at, ip_at; rewrite ?peer_shell, ?N, ?S; try reflexivity.
  rewrite <- !shell_net, S. reflexivity.
Qed.
