(** Proofs about the layer-2 database: what users see. *)
From Verif Require Import Base BufLemmas NetaddrModel NetaddrSpec NetaddrProofs StrBase L2DataModel L2DataSpec L2KeyProofs L2DbModel L2DbSpec L2DbProofs L2DbProofs2 L2DbProofs3 L2DbProofs4.

(** * Values in arrays *)
Definition vget (l : list data) (i : Z) : option (meta * Z * Z) := match zget l i with Some x => reading x | None => None end.
Lemma vget_in l i r : vget l i = Some r -> exists x, In x l /\ reading x = Some r.
Proof.
  unfold vget, zget. destruct (i <? 0); [discriminate|]. destruct (nth_error l (Z.to_nat i)) as [x|] eqn:E; [|discriminate]. intros R.
  exists x. split; [apply nth_error_In in E; exact E|exact R].
Qed.
Lemma in_vget l x r : In x l -> reading x = Some r -> exists i, vget l i = Some r.
Proof.
  intros I0 R. apply In_nth_error in I0. destruct I0 as [k E]. exists (Z.of_nat k). unfold vget, zget. assert ((Z.of_nat k <? 0) = false) as -> by lia.
  rewrite Nat2Z.id, E. exact R.
Qed.
Lemma zget_map {A B} (f : A -> B) l i : zget (map f l) i = option_map f (zget l i).
Proof. unfold zget. destruct (i <? 0); [reflexivity|]. rewrite nth_error_map. reflexivity. Qed.
Lemma vget_wipe o l i m v w : vget (wipe o l) i = Some (m, v, w) <-> vget l i = Some (m, v, w) /\ w <> o.
Proof.
  unfold vget, wipe. rewrite zget_map. destruct (zget l i) as [x|]; cbn [option_map]; [|split; [discriminate|intros [Q _]; discriminate]].
  unfold owned, reading. destruct (d_org x) as [p|] eqn:E.
  - destruct (Z.eqb_spec p o) as [->|N].
    + cbn. split; [discriminate|]. intros [Q N]. destruct (d_meta x); [injection Q as _ _ <-|discriminate]. easy.
    + rewrite E. destruct (d_meta x); [|split; [discriminate|intros [Q _]; discriminate]]. split; [intros Q; split; [exact Q|injection Q as _ _ <-; exact N]|tauto].
  - rewrite E. split; [discriminate|intros [Q _]; discriminate].
Qed.
Lemma vget_relabel onew old l i : vget (map (relabel_data onew old) l) i =
  option_map (fun r => (fst r, if snd r =? old then onew else snd r)) (vget l i).
Proof.
  unfold vget. rewrite zget_map. destruct (zget l i) as [x|]; [|reflexivity]. cbn [option_map]. unfold relabel_data, owned, reading.
  destruct (d_org x) as [w|] eqn:E; [|rewrite E; reflexivity]. destruct (w =? old) eqn:Q; cbn [d_org d_meta d_val]; [|rewrite E]; destruct (d_meta x); cbn; rewrite ?Q; reflexivity.
Qed.
Lemma owned_vget o l : meta_kept l -> (existsb (owned o) l = true <-> exists i m v w, vget l i = Some (m, v, w) /\ o = w).
Proof.
  intros M. rewrite existsb_exists. split.
  - intros (x & I0 & O). unfold owned in O. destruct (d_org x) as [w|] eqn:E; [|discriminate]. apply Z.eqb_eq in O. subst w.
    unfold meta_kept in M. rewrite Forall_forall in M. specialize (M x I0). destruct (d_meta x) as [m|] eqn:Em; [|exfalso; apply M; [rewrite E; discriminate|reflexivity]].
    destruct (in_vget l x (m, d_val x, o) I0) as [i Q]; [unfold reading; rewrite E, Em; reflexivity|]. exists i, m, (d_val x), o. split; [exact Q|reflexivity].
  - intros (i & m & v & w & Q & <-). apply vget_in in Q. destruct Q as (x & I0 & R). exists x. split; [exact I0|]. unfold reading in R. unfold owned.
    destruct (d_org x) as [p|]; [|discriminate]. destruct (d_meta x); [|discriminate]. injection R as _ _ ->. apply Z.eqb_refl.
Qed.
Lemma has_value_vget l : existsb has_value l = true <-> exists i m v w, vget l i = Some (m, v, w).
Proof.
  rewrite existsb_exists. split.
  - intros (x & I0 & O). unfold has_value in O. destruct (d_org x) as [w|] eqn:E; [|discriminate]. destruct (d_meta x) as [m|] eqn:Em; [|discriminate].
    destruct (in_vget l x (m, d_val x, w) I0) as [i Q]; [unfold reading; rewrite E, Em; reflexivity|]. eauto.
  - intros (i & m & v & w & Q). apply vget_in in Q. destruct Q as (x & I0 & R). exists x. split; [exact I0|]. unfold reading in R. unfold has_value.
    destruct (d_org x) as [p|]; [|discriminate]. destruct (d_meta x); [reflexivity|discriminate].
Qed.
Lemma value_net d n i : value_at d (PNet n) i = match shell d n with Some s => vget (fst (fst s)) i | None => None end.
Proof. unfold value_at, shell; cbn. destruct (net_at d n); reflexivity. Qed.
Lemma value_def d n i : value_at d (PDef n) i = match shell d n with Some s => vget (snd (fst s)) i | None => None end.
Proof. unfold value_at, shell; cbn. destruct (net_at d n); reflexivity. Qed.
Lemma value_neigh d n k i : value_at d (PNeigh n k) i = match ne_at d n k with Some ne => vget (ne_data ne) i | None => None end.
Proof. unfold value_at; cbn. destruct (ne_at d n k); reflexivity. Qed.

(** * Neighbors *)
Lemma has_org (t : list (netaddr * Z)) o : NoDup (keys t) -> (existsb (fun e => snd e =? o) t = true <-> exists a w, tfind na_eqb t a = Some w /\ o = w).
Proof.
  intros ND. rewrite existsb_exists. split.
  - intros ([a w] & I0 & Q). cbn in Q. apply Z.eqb_eq in Q. subst w. exists a, o. split; [apply (in_tfind na_eqb na_ok); assumption|reflexivity].
  - intros (a & w & Q & <-). apply (tfind_in na_eqb na_ok) in Q. exists (a, o). split; [exact Q|apply Z.eqb_refl].
Qed.
Lemma touched_iff d n k ne o : wf d -> ne_at d n k = Some ne -> (touched o ne = true <-> neigh_of (eq o) d n k).
Proof.
  intros W E. destruct (wf_ne d W n k ne E) as (A & B & C). unfold touched. rewrite !orb_true_iff, (has_org _ o A), (has_org _ o B), (owned_vget o _ C).
  unfold neigh_of, dst_at, ip_at. rewrite E. setoid_rewrite value_neigh. rewrite E. tauto.
Qed.
Lemma tnonempty (t : list (netaddr * Z)) : t <> [] <-> exists a w, tfind na_eqb t a = Some w.
Proof.
  destruct t as [|[a w] t]; split.
  - easy.
  - intros (a & w & Q). discriminate.
  - intros _. exists a, w. cbn. rewrite na_eqb_refl. reflexivity.
  - discriminate.
Qed.
Lemma hollow_iff d n k ne : ne_at d n k = Some ne -> (hollow ne = false <-> neigh_of (fun _ => True) d n k).
Proof.
  intros E. unfold neigh_of, dst_at, ip_at. rewrite E. setoid_rewrite value_neigh. rewrite E.
  assert (hollow ne = false <-> ne_dst ne <> [] \/ ne_ips ne <> [] \/ existsb has_value (ne_data ne) = true) as ->.
  { unfold hollow. destruct (ne_dst ne); [destruct (ne_ips ne)|].
    - rewrite negb_false_iff. split; [auto|intros [Q|[Q|Q]]; easy].
    - split; [intros _; right; left; discriminate|reflexivity].
    - split; [intros _; left; discriminate|reflexivity]. }
  rewrite !tnonempty, has_value_vget. split.
  - intros [(a & w & Q)|[(a & w & Q)|(i & m & v & w & Q)]]; [left; exists a, w|right; left; exists a, w|right; right; exists i, m, v, w]; auto.
  - intros [(a & w & Q & _)|[(a & w & Q & _)|(i & m & v & w & Q & _)]]; [left; exists a, w|right; left; exists a, w|right; right; exists i, m, v, w]; auto.
Qed.
(** what is left of a neighbor *)
Lemma strip_facts d n k ne o : wf d -> ne_at d n k = Some ne ->
  (forall a w, tfind na_eqb (ne_dst (strip o ne)) a = Some w <-> dst_at d n k a = Some w /\ w <> o) /\
  (forall a w, tfind na_eqb (ne_ips (strip o ne)) a = Some w <-> ip_at d n k a = Some w /\ w <> o) /\
  (forall i m v w, vget (ne_data (strip o ne)) i = Some (m, v, w) <-> value_at d (PNeigh n k) i = Some (m, v, w) /\ w <> o).
Proof.
  intros W E. destruct (wf_ne d W n k ne E) as (A & B & C). unfold dst_at, ip_at. rewrite E.
  assert (forall t : list (netaddr * Z), NoDup (keys t) -> forall a w, tfind na_eqb (filter (fun e => negb (snd e =? o)) t) a = Some w <-> tfind na_eqb t a = Some w /\ w <> o) as F.
  { intros t ND a w. rewrite (tfind_filter na_eqb na_ok (fun v => negb (v =? o))) by exact ND. destruct (tfind na_eqb t a) as [v|]; [|split; [discriminate|intros [Q _]; discriminate]].
    destruct (Z.eqb_spec v o) as [->|N]; cbn [negb].
    - split; [discriminate|]. intros [Q N]. injection Q as <-. easy.
    - split; [intros Q; split; [exact Q|injection Q as <-; exact N]|tauto]. }
  split; [apply F, A|]. split; [apply F, B|]. intros i m v w. rewrite value_neigh, E. apply vget_wipe.
Qed.
Lemma strip_hollow d n k ne o : wf d -> ne_at d n k = Some ne -> (hollow (strip o ne) = false <-> neigh_of (fun w => w <> o) d n k).
Proof.
  intros W E. destruct (strip_facts d n k ne o W E) as (A & B & C). unfold neigh_of.
  assert (hollow (strip o ne) = false <-> ne_dst (strip o ne) <> [] \/ ne_ips (strip o ne) <> [] \/ existsb has_value (ne_data (strip o ne)) = true) as ->.
  { unfold hollow. destruct (ne_dst (strip o ne)); [destruct (ne_ips (strip o ne))|].
    - rewrite negb_false_iff. split; [auto|intros [Q|[Q|Q]]; easy].
    - split; [intros _; right; left; discriminate|reflexivity].
    - split; [intros _; left; discriminate|reflexivity]. }
  rewrite !tnonempty, has_value_vget. split.
  - intros [(a & w & Q)|[(a & w & Q)|(i & m & v & w & Q)]]; [apply A in Q; left; exists a, w|apply B in Q; right; left; exists a, w|apply C in Q; right; right; exists i, m, v, w]; auto.
  - intros [(a & w & Q)|[(a & w & Q)|(i & m & v & w & Q)]]; [apply A in Q; left; exists a, w|apply B in Q; right; left; exists a, w|apply C in Q; right; right; exists i, m, v, w]; auto.
Qed.
(** [nbr_after] in terms of what belongs to whom *)
Lemma nbr_after_iff d n k o : wf d -> (nbr_after o d n k <> None <-> ne_at d n k <> None /\ (neigh_of (eq o) d n k -> neigh_of (fun w => w <> o) d n k)).
Proof.
  intros W. unfold nbr_after. destruct (ne_at d n k) as [ne|] eqn:E; [|tauto]. unfold after. pose proof (touched_iff d n k ne o W E) as T. pose proof (strip_hollow d n k ne o W E) as H.
  destruct (touched o ne); [destruct (hollow (strip o ne))|].
  - split; [easy|]. intros [_ Q]. assert (true = false) as X by (apply H, Q, T; reflexivity). discriminate.
  - split; [intros _; split; [discriminate|intros _; apply H; reflexivity]|discriminate].
  - split; [|discriminate]. intros _. split; [discriminate|]. intros Q. apply T in Q. discriminate.
Qed.
Lemma nbr_after_strip d n k o ne : ne_at d n k = Some ne -> nbr_after o d n k = None \/ nbr_after o d n k = Some (strip o ne).
Proof.
  intros E. unfold nbr_after. rewrite E. unfold after. destruct (touched o ne) eqn:T; [destruct (hollow (strip o ne)); auto|]. right. rewrite strip_id by exact T. reflexivity.
Qed.
Lemma other_remains d n k o : wf d -> neigh_of (fun w => w <> o) d n k -> exists ne, ne_at d n k = Some ne /\ nbr_after o d n k = Some (strip o ne).
Proof.
  intros W H. destruct (ne_at d n k) as [ne|] eqn:E.
  - exists ne. split; [reflexivity|]. destruct (nbr_after_strip d n k o ne E) as [Q|Q]; [|exact Q]. exfalso. apply (nbr_after_iff d n k o W); [|exact Q].
    split; [rewrite E; discriminate|auto].
  - exfalso. destruct H as [(a & w & Q & _)|[(a & w & Q & _)|(i & m & v & w & Q & _)]].
    + unfold dst_at in Q. rewrite E in Q. discriminate.
    + unfold ip_at in Q. rewrite E in Q. discriminate.
    + rewrite value_neigh, E in Q. discriminate.
Qed.
Lemma alive d n k o : nbr_after o d n k <> None -> ~ net_dies o d n.
Proof. intros H (_ & A & _). apply H, A. Qed.
Lemma netdata_iff d n s o : wf d -> shell d n = Some s ->
  (existsb (owned o) (fst (fst s)) || existsb (owned o) (snd (fst s)) = true <-> netdata_of (eq o) d n) /\
  (novalue (wipe_shell o s) = false <-> netdata_of (fun w => w <> o) d n).
Proof.
  intros W E. destruct (net_at d n) as [nt|] eqn:EN; [|unfold shell in E; rewrite EN in E; discriminate].
  assert (s = shell_of nt) as -> by (unfold shell in E; rewrite EN in E; injection E; auto). destruct (wf_net d W n nt EN) as (_ & _ & A & B).
  unfold netdata_of. setoid_rewrite value_net. setoid_rewrite value_def. rewrite E. cbn [shell_of fst snd]. split.
  - rewrite orb_true_iff, (owned_vget o _ A), (owned_vget o _ B). reflexivity.
  - unfold novalue, wipe_shell; cbn [shell_of fst snd]. rewrite andb_false_iff, !negb_false_iff, !has_value_vget. setoid_rewrite vget_wipe. reflexivity.
Qed.

(** * Removal of an origin *)
Section Gone.
Variables (d : db) (o : Z).
Hypothesis IV : Inv d.
Let d' := origin_remove d o.
Lemma gone_net n : shell d' n = None /\ (forall k, ne_at d' n k = None) /\ (forall k, nbr_after o d n k = None) /\ (forall s, shell d n = Some s -> novalue (wipe_shell o s) = true) \/
                   shell d' n = option_map (wipe_shell o) (shell d n) /\ forall k, ne_at d' n k = nbr_after o d n k.
Proof.
  destruct (origin_remove_spec d o IV) as [_ H]. destruct (H n) as [((_ & D2 & D3) & _ & A & B)|(_ & A & B)]; [left|right; split; assumption]. auto.
Qed.
Lemma gone_ne n k : ne_at d' n k = nbr_after o d n k.
Proof. destruct (gone_net n) as [(_ & A & B & _)|(_ & A)]; [rewrite A, B; reflexivity|apply A]. Qed.
Let W : wf d := proj1 IV.
Lemma gone_dst n k a w : dst_at d' n k a = Some w <-> dst_at d n k a = Some w /\ w <> o.
Proof.
  unfold dst_at at 1. rewrite gone_ne. destruct (ne_at d n k) as [ne|] eqn:E.
  - destruct (strip_facts d n k ne o W E) as (A & _). split.
    + intros Q. destruct (nbr_after_strip d n k o ne E) as [R|R]; rewrite R in Q; [discriminate|]. apply A, Q.
    + intros Q. destruct (other_remains d n k o W) as (ne' & E' & ->); [left; exists a, w; exact Q|]. rewrite E in E'. injection E' as <-. apply A, Q.
  - unfold nbr_after. rewrite E. unfold dst_at. rewrite E. split; [discriminate|intros [Q _]; discriminate].
Qed.
Lemma gone_ip n k a w : ip_at d' n k a = Some w <-> ip_at d n k a = Some w /\ w <> o.
Proof.
  unfold ip_at at 1. rewrite gone_ne. destruct (ne_at d n k) as [ne|] eqn:E.
  - destruct (strip_facts d n k ne o W E) as (_ & A & _). split.
    + intros Q. destruct (nbr_after_strip d n k o ne E) as [R|R]; rewrite R in Q; [discriminate|]. apply A, Q.
    + intros Q. destruct (other_remains d n k o W) as (ne' & E' & ->); [right; left; exists a, w; exact Q|]. rewrite E in E'. injection E' as <-. apply A, Q.
  - unfold nbr_after. rewrite E. unfold ip_at. rewrite E. split; [discriminate|intros [Q _]; discriminate].
Qed.
Lemma gone_value p i m v w : value_at d' p i = Some (m, v, w) <-> value_at d p i = Some (m, v, w) /\ w <> o.
Proof.
  destruct p as [n|n|n k].
  - rewrite !value_net. destruct (shell d n) as [s|] eqn:E.
    + rewrite <- (vget_wipe o (fst (fst s))). destruct (gone_net n) as [(A & _ & _ & B)|(A & _)].
      * rewrite A. split; [discriminate|]. intros Q. specialize (B s E). unfold novalue, wipe_shell in B; cbn [fst snd] in B. apply andb_true_iff in B. destruct B as [B _].
        apply negb_true_iff in B. assert (existsb has_value (wipe o (fst (fst s))) = true) as X by (apply has_value_vget; exists i, m, v, w; exact Q). congruence.
      * rewrite A, E. reflexivity.
    + destruct (gone_net n) as [(A & _)|(A & _)]; rewrite A, ?E; cbn; (split; [discriminate|intros [Q _]; discriminate]).
  - rewrite !value_def. destruct (shell d n) as [s|] eqn:E.
    + rewrite <- (vget_wipe o (snd (fst s))). destruct (gone_net n) as [(A & _ & _ & B)|(A & _)].
      * rewrite A. split; [discriminate|]. intros Q. specialize (B s E). unfold novalue, wipe_shell in B; cbn [fst snd] in B. apply andb_true_iff in B. destruct B as [_ B].
        apply negb_true_iff in B. assert (existsb has_value (wipe o (snd (fst s))) = true) as X by (apply has_value_vget; exists i, m, v, w; exact Q). congruence.
      * rewrite A, E. reflexivity.
    + destruct (gone_net n) as [(A & _)|(A & _)]; rewrite A, ?E; cbn; (split; [discriminate|intros [Q _]; discriminate]).
  - rewrite (value_neigh d'), gone_ne. destruct (ne_at d n k) as [ne|] eqn:E.
    + destruct (strip_facts d n k ne o W E) as (_ & _ & A). split.
      * intros Q. destruct (nbr_after_strip d n k o ne E) as [R|R]; rewrite R in Q; [discriminate|]. apply A, Q.
      * intros Q. destruct (other_remains d n k o W) as (ne' & E' & ->); [right; right; exists i, m, v, w; exact Q|]. rewrite E in E'. injection E' as <-. apply A, Q.
    + unfold nbr_after. rewrite E, value_neigh, E. split; [discriminate|intros [Q _]; discriminate].
Qed.
Lemma gone_neigh n k : has d' (ONeigh n k) <-> has d (ONeigh n k) /\ (neigh_of (eq o) d n k -> neigh_of (fun w => w <> o) d n k).
Proof. cbn [has]. rewrite gone_ne. apply nbr_after_iff, W. Qed.
Lemma net_touched_iff n s : shell d n = Some s -> (net_touched o d n <-> netdata_of (eq o) d n \/ exists k, neigh_of (eq o) d n k).
Proof.
  intros E. destruct (netdata_iff d n s o W E) as [N _]. unfold net_touched. split.
  - intros [(k & Q)|(s' & E' & Q)].
    + right. exists k. unfold nbr_touched in Q. destruct (ne_at d n k) as [ne|] eqn:F; [|discriminate]. apply (touched_iff d n k ne o W F), Q.
    + left. rewrite E in E'. injection E' as <-. apply N, Q.
  - intros [Q|(k & Q)].
    + right. exists s. split; [exact E|apply N, Q].
    + left. exists k. unfold nbr_touched. destruct (ne_at d n k) as [ne|] eqn:F.
      * apply (touched_iff d n k ne o W F), Q.
      * exfalso. destruct Q as [(a & w & Q & _)|[(a & w & Q & _)|(i & m & v & w & Q & _)]].
        -- unfold dst_at in Q. rewrite F in Q. discriminate.
        -- unfold ip_at in Q. rewrite F in Q. discriminate.
        -- rewrite value_neigh, F in Q. discriminate.
Qed.
Lemma gone_has_net n : has d' (ONet n) <-> has d (ONet n) /\
  (netdata_of (eq o) d n \/ (exists k, neigh_of (eq o) d n k) -> netdata_of (fun w => w <> o) d n \/ exists k, has d' (ONeigh n k)).
Proof.
  cbn [has]. rewrite <- !shell_net. destruct (shell d n) as [s|] eqn:E.
  - pose proof (net_touched_iff n s E) as T. destruct (netdata_iff d n s o W E) as [_ V]. destruct (origin_remove_spec d o IV) as [_ H].
    destruct (H n) as [((D1 & D2 & D3) & _ & A & B)|([D|D] & A & B)]; [| |congruence]; fold d' in A, B; rewrite A.
    + split; [easy|]. intros [_ Q]. exfalso. apply T in D1. destruct (Q D1) as [X|(k & X)].
      * apply V in X. rewrite (D3 s E) in X. discriminate.
      * rewrite B in X. easy.
    + rewrite E. cbn. split; [|discriminate]. intros _. split; [discriminate|]. intros Q. apply T in Q. destruct (novalue (wipe_shell o s)) eqn:NV; [|left; apply V; reflexivity].
      right. assert (exists nt, net_at d n = Some nt) as [nt EN] by (unfold shell in E; destruct (net_at d n); [eauto|discriminate]).
      destruct (existsb (fun k => match nbr_after o d n k with Some _ => true | None => false end) (keys (nt_neighs nt))) eqn:EX.
      * apply existsb_exists in EX. destruct EX as (k & _ & EX). exists k. rewrite B. destruct (nbr_after o d n k); [discriminate|discriminate].
      * exfalso. apply D. split; [exact Q|]. split; [|intros s' E'; rewrite E in E'; injection E' as <-; exact NV].
        intros k. destruct (nbr_after o d n k) eqn:F; [|reflexivity]. assert (In k (keys (nt_neighs nt))) as I0.
        { apply (ne_at_keys d n nt k EN). unfold nbr_after in F. destruct (ne_at d n k); [discriminate|discriminate]. }
        assert (existsb (fun k => match nbr_after o d n k with Some _ => true | None => false end) (keys (nt_neighs nt)) = true) as X
          by (apply existsb_exists; exists k; split; [exact I0|rewrite F; reflexivity]). congruence.
  - destruct (gone_net n) as [(A & _)|(A & _)]; rewrite A, ?E; cbn; tauto.
Qed.
Lemma gone_peer n a w : peer_at d' n a = Some w <-> peer_at d n a = Some w /\ has d' (ONet n).
Proof.
  cbn [has]. rewrite !peer_shell, <- shell_net. destruct (gone_net n) as [(A & _)|(A & _)]; rewrite A.
  - split; [discriminate|intros [_ Q]; easy].
  - destruct (shell d n); cbn; split; try easy; tauto.
Qed.
End Gone.

(** * Best match *)
Lemma all_ips_in d n k a : wf d -> (In (n, k, a) (all_ips d) <-> ip_at d n k a <> None).
Proof.
  intros W. unfold all_ips. rewrite in_flat_map. split.
  - intros ([m nt] & I1 & Q). apply in_flat_map in Q. destruct Q as ([j ne] & I2 & Q). apply in_map_iff in Q. destruct Q as ([b w] & E & I3). cbn [fst snd] in *. injection E as <- <- <-.
    assert (net_at d m = Some nt) as E1 by (apply (in_tfind str_eqb str_ok); [apply W|exact I1]).
    assert (ne_at d m j = Some ne) as E2 by (unfold ne_at; rewrite E1; apply (in_tfind key_eqb key_ok'); [apply (wf_net d W m nt E1)|exact I2]).
    unfold ip_at. rewrite E2. rewrite (in_tfind na_eqb na_ok (ne_ips ne) b w); [discriminate|apply (wf_ne d W m j ne E2)|exact I3].
  - intros Q. unfold ip_at in Q. destruct (ne_at d n k) as [ne|] eqn:E2; [|easy]. destruct (tfind na_eqb (ne_ips ne) a) as [w|] eqn:E3; [|easy].
    destruct (ne_at_net d n k ne E2) as (nt & E1 & E4). exists (n, nt). split; [apply (tfind_in str_eqb str_ok), E1|]. apply in_flat_map.
    exists (k, ne). split; [apply (tfind_in key_eqb key_ok'), E4|]. apply in_map_iff. exists (a, w). split; [reflexivity|apply (tfind_in na_eqb na_ok), E3].
Qed.
Lemma best_loop_spec addr l : na_wf addr -> (forall x, In x l -> na_wf (snd x) /\ na_plen (snd x) <= 128) -> forall best len,
  exists r, best_loop l addr best len = Some r /\
   ((r = best /\ forall x, In x l -> member (snd x) addr -> len <= na_plen (snd x)) \/
    (exists x, r = Some x /\ In x l /\ member (snd x) addr /\ na_plen (snd x) < len /\ forall y, In y l -> member (snd y) addr -> na_plen (snd x) <= na_plen (snd y))).
Proof.
  intros WA. induction l as [|x l IH]; intros H best len; cbn [best_loop].
  - exists best. split; [reflexivity|]. left. split; [reflexivity|intros x []].
  - destruct (H x (or_introl eq_refl)) as [Wx Px]. destruct (is_in_subnet_spec (snd x) addr Wx WA Px) as (b & -> & B).
    assert (forall y, In y l -> na_wf (snd y) /\ na_plen (snd y) <= 128) as H' by (intros y I0; apply H; right; exact I0).
    destruct (b && (na_plen (snd x) <? len)) eqn:C.
    + apply andb_true_iff in C. destruct C as [C1 C2]. apply Z.ltb_lt in C2. destruct (IH H' (Some x) (na_plen (snd x))) as (r & -> & R). exists r. split; [reflexivity|]. right.
      destruct R as [(-> & R)|(y & -> & I0 & M & L & R)].
      * exists x. split; [reflexivity|]. split; [left; reflexivity|]. split; [apply B, C1|]. split; [exact C2|]. intros y [<-|I0] M; [lia|auto].
      * exists y. split; [reflexivity|]. split; [right; exact I0|]. split; [exact M|]. split; [lia|]. intros z [<-|I1] Mz; [lia|auto].
    + destruct (IH H' best len) as (r & -> & R). exists r. split; [reflexivity|].
      destruct R as [(-> & R)|(y & -> & I0 & M & L & R)].
      * left. split; [reflexivity|]. intros y [<-|I0] M; [|auto]. apply B in M. rewrite M in C. cbn in C. lia.
      * right. exists y. split; [reflexivity|]. split; [right; exact I0|]. split; [exact M|]. split; [exact L|]. intros z [<-|I1] Mz; [|auto].
        apply B in Mz. rewrite Mz in C. cbn in C. lia.
Qed.
