(** The layer-2 database (C96-C99). *)
From Verif Require Import Base BufLemmas NetaddrModel NetaddrSpec NetaddrProofs StrBase L2DataModel L2DataSpec L2KeyProofs L2DbModel L2DbSpec L2DbProofs L2DbProofs2 L2DbProofs3 L2DbProofs4 L2DbProofs5.

(** a database that calls with names of at most 15 characters lead to *)
Definition reached (prio : Z -> Z) (d : db) : Prop := exists cs, Forall short_op cs /\ run prio db0 cs = Some d.
Lemma reached_inv prio d : reached prio d -> Inv d.
Proof. intros (cs & F & R). exact (run_inv prio cs db0 d F inv0 R). Qed.

(** Examples: two networks, two neighbors, three origins (1 < 2 < 3) *)
Definition mac1 : netaddr := {| na_addr := [2; 0; 0; 0; 0; 1] ++ repeat 0 10; na_type := AF_MAC48; na_plen := 48 |}.
Definition mac2 : netaddr := {| na_addr := [2; 0; 0; 0; 0; 2] ++ repeat 0 10; na_type := AF_MAC48; na_plen := 48 |}.
Definition net10 : netaddr := {| na_addr := [10; 0; 0; 0] ++ repeat 0 12; na_type := AF_INET; na_plen := 8 |}.
Definition net101 : netaddr := {| na_addr := [10; 1; 0; 0] ++ repeat 0 12; na_type := AF_INET; na_plen := 16 |}.
Definition host : netaddr := {| na_addr := [10; 1; 2; 3] ++ repeat 0 12; na_type := AF_INET; na_plen := 32 |}.
Definition wlan0 : bytes := zs "wlan0".
Definition k1 : nkey := plain_key mac1.
Definition k2 : nkey := plain_key mac2.
Definition story : list op :=
  [NetAdd wlan0; NetAdd (zs "eth0"); NeighAdd wlan0 k1; NeighAdd wlan0 k2;
   SetValue (PNeigh wlan0 k1) 5 1 None 100; SetValue (PNeigh wlan0 k1) 6 2 None 200; SetValue (PNeigh wlan0 k2) 5 1 None 300;
   SetValue (PDef wlan0) 7 3 None 400; SetValue (PNet (zs "eth0")) 0 1 None 500;
   IpAdd wlan0 k1 2 net10; IpAdd wlan0 k2 1 net101; DstAdd wlan0 k2 mac1 1; PeerAdd wlan0 3 host; NeighCommit wlan0 k1].
Definition world : db := match run (fun o => o) db0 story with Some d => d | None => db0 end.
Lemma world_reached : reached (fun o => o) world.
Proof. exists story. split; [repeat (constructor; [cbn; try exact I; vm_compute; discriminate|]); constructor|vm_compute; reflexivity]. Qed.

(** ** C96: events and trees *)

(** C96: whoever follows the events of the database always knows exactly its
    networks, neighbors, destinations and addresses, is told about parts only
    after the whole, and about the removal of the whole only after that of all
    parts.  Missing: names of more than 15 characters (false, see below). *)
Theorem C96_listener_partial prio cs d : Forall short_op cs -> run prio db0 cs = Some d ->
  exists l, listen [] (log d) = Some l /\ forall x, In x l <-> has d x.
Proof. intros F R. apply (run_inv prio cs db0 d F inv0 R). Qed.
(** C96: the tree of all neighbor addresses of a network and the tree of all peer
    addresses contain exactly the addresses that are there, once. *)
Theorem C96_trees_partial prio cs d : Forall short_op cs -> run prio db0 cs = Some d ->
  (NoDup (rips d) /\ forall n k a, In (n, k, a) (rips d) <-> has d (OIp n k a)) /\
  (NoDup (gips d) /\ forall n a, In (n, a) (gips d) <-> has d (OPeer n a)).
Proof. intros F R. destruct (run_inv prio cs db0 d F inv0 R) as (_ & [A B C D] & _). auto. Qed.
(** C96: nothing is there without what it is part of. *)
Theorem C96_parents d x p : has d x -> parent x = Some p -> has d p.
Proof. exact (has_parent d x p). Qed.
(** C96: at shutdown everything is removed, and listeners were told so. *)
Theorem C96_shutdown_partial prio d : reached prio d ->
  (forall x, ~ has (shutdown d) x) /\ listen [] (log (shutdown d)) = Some [].
Proof.
  intros R. destruct (shutdown_spec d (reached_inv prio d R)) as [IV N]. split; [exact N|]. destruct IV as (_ & _ & l & L & H).
  rewrite L. f_equal. destruct l as [|x l]; [reflexivity|]. exfalso. apply (N x), H. left; reflexivity.
Qed.
Example C96_ex : reached (fun o => o) world /\ has world (OIp wlan0 k2 net101) /\ has world (OPeer wlan0 host) /\
  listen [] (log world) = Some [OPeer wlan0 host; ODst wlan0 k2 mac1; OIp wlan0 k2 net101; OIp wlan0 k1 net10; ONeigh wlan0 k2; ONeigh wlan0 k1; ONet (zs "eth0"); ONet wlan0] /\
  length (log (shutdown world)) = 17%nat.
Proof.
  split; [exact world_reached|]. split; [vm_compute; discriminate|]. split; [vm_compute; discriminate|]. split; vm_compute; reflexivity.
Qed.
(** C96: a name of more than 15 characters is never found: the second addition
    announces the network again (and the new object is lost). *)
Theorem C96_long_name_refuted : exists prio cs d, run prio db0 cs = Some d /\ listen [] (log d) = None.
Proof. exists (fun o => o), [NetAdd (zs "interface-with-long-name"); NetAdd (zs "interface-with-long-name")]. eexists. split; vm_compute; reflexivity. Qed.

(** ** C97: origins *)

(** C97: removing an origin removes exactly its values ... *)
Theorem C97_values prio d o p i m v w : reached prio d ->
  (value_at (origin_remove d o) p i = Some (m, v, w) <-> value_at d p i = Some (m, v, w) /\ w <> o).
Proof. intros R. apply gone_value, (reached_inv prio d R). Qed.
(** ... exactly its destinations and neighbor addresses ... *)
Theorem C97_destinations prio d o n k a w : reached prio d ->
  (dst_at (origin_remove d o) n k a = Some w <-> dst_at d n k a = Some w /\ w <> o).
Proof. intros R. apply gone_dst, (reached_inv prio d R). Qed.
Theorem C97_addresses prio d o n k a w : reached prio d ->
  (ip_at (origin_remove d o) n k a = Some w <-> ip_at d n k a = Some w /\ w <> o).
Proof. intros R. apply gone_ip, (reached_inv prio d R). Qed.
(** ... the neighbors that had something of this origin and have nothing else ... *)
Theorem C97_neighbors prio d o n k : reached prio d ->
  (has (origin_remove d o) (ONeigh n k) <-> has d (ONeigh n k) /\ (neigh_of (eq o) d n k -> neigh_of (fun w => w <> o) d n k)).
Proof. intros R. apply gone_neigh, (reached_inv prio d R). Qed.
(** ... and the networks that had something of this origin and have neither values
    nor neighbors left. *)
Theorem C97_networks prio d o n : reached prio d ->
  (has (origin_remove d o) (ONet n) <-> has d (ONet n) /\
    (netdata_of (eq o) d n \/ (exists k, neigh_of (eq o) d n k) -> netdata_of (fun w => w <> o) d n \/ exists k, has (origin_remove d o) (ONeigh n k))).
Proof. intros R. apply gone_has_net, (reached_inv prio d R). Qed.
(** C97: addresses of local peers are not looked at: they stay if the network stays. *)
Theorem C97_peers_partial prio d o n a w : reached prio d ->
  (peer_at (origin_remove d o) n a = Some w <-> peer_at d n a = Some w /\ has (origin_remove d o) (ONet n)).
Proof. intros R. apply gone_peer, (reached_inv prio d R). Qed.
(** C97: listeners and trees follow *)
Theorem C97_listener prio d o : reached prio d ->
  exists l, listen [] (log (origin_remove d o)) = Some l /\ forall x, In x l <-> has (origin_remove d o) x.
Proof. intros R. apply origin_remove_spec, (reached_inv prio d R). Qed.
Example C97_ex : let d' := origin_remove world 1 in
  value_at d' (PNeigh wlan0 k1) 5 = None /\ (exists m, value_at d' (PNeigh wlan0 k1) 6 = Some (m, 200, 2)) /\
  ~ has d' (ONeigh wlan0 k2) /\ ~ has d' (ONet (zs "eth0")) /\ has d' (ONet wlan0) /\ ip_at d' wlan0 k1 net10 = Some 2 /\
  neigh_of (eq 1) world wlan0 k1 /\ neigh_of (fun w => w <> 1) world wlan0 k1.
Proof.
  cbv zeta. split; [vm_compute; reflexivity|]. split; [eexists; vm_compute; reflexivity|]. split; [vm_compute; tauto|]. split; [vm_compute; tauto|].
  split; [vm_compute; discriminate|]. split; [vm_compute; reflexivity|]. split.
  - right; right. exists 5. do 3 eexists. split; [vm_compute; reflexivity|reflexivity].
  - right; left. exists net10, 2. split; [vm_compute; reflexivity|lia].
Qed.
(** C97: after an origin is gone, addresses of local peers still point to it. *)
Theorem C97_peer_stays_refuted : exists prio d o n a, reached prio d /\ peer_at (origin_remove d o) n a = Some o.
Proof. exists (fun o => o), world, 3, wlan0, host. split; [exact world_reached|]. vm_compute. reflexivity. Qed.
(** C97: a network whose only other content is the peer address of another origin is removed together with it. *)
Theorem C97_peer_lost_refuted : exists prio d o n a w, reached prio d /\ w <> o /\ peer_at d n a = Some w /\ peer_at (origin_remove d o) n a = None.
Proof.
  set (cs := [NetAdd wlan0; SetValue (PNet wlan0) 0 1 None 5; PeerAdd wlan0 2 host]).
  exists (fun o => o). destruct (run (fun o => o) db0 cs) as [d|] eqn:R; [|vm_compute in R; discriminate]. exists d, 1, wlan0, host, 2.
  split; [exists cs; split; [repeat (constructor; [cbn; try exact I; vm_compute; discriminate|]); constructor|exact R]|]. split; [lia|].
  vm_compute in R. injection R as <-. split; vm_compute; reflexivity.
Qed.
(** C97: a value of an origin that stays is lost if one of higher priority had
    been written over it; and after that the object refuses its default metadata. *)
Theorem C97_overwritten_refuted : exists prio cs d, Forall short_op cs /\ run prio db0 cs = Some d /\ In (SetValue (PNet wlan0) 0 1 None 5) cs /\
  ~ In (OriginRemove 1) cs /\ In (OriginRemove 2) cs /\ value_at d (PNet wlan0) 0 = None /\ step prio d (SetValue (PNet wlan0) 0 1 None 5) = None.
Proof.
  exists (fun o => o), [NetAdd wlan0; NeighAdd wlan0 k1; IpAdd wlan0 k1 1 host; SetValue (PNet wlan0) 0 1 None 5; SetValue (PNet wlan0) 0 2 None 6; OriginRemove 2].
  eexists. split; [repeat (constructor; [cbn; try exact I; vm_compute; discriminate|]); constructor|]. split; [vm_compute; reflexivity|].
  split; [right; right; right; left; reflexivity|]. split; [intros Q; repeat (destruct Q as [Q|Q]; [discriminate|]); destruct Q|]. split; [do 5 right; left; reflexivity|].
  split; vm_compute; reflexivity.
Qed.
(** C97: a destination that is added again by another origin stays with the first one. *)
Theorem C97_destination_owner_refuted : exists d n k a o o', dst_at d n k a = Some o /\ o <> o' /\ dst_at (dst_add d n k a o') n k a = Some o.
Proof. exists world, wlan0, k2, mac1, 1, 2. split; [vm_compute; reflexivity|]. split; [lia|]. vm_compute. reflexivity. Qed.
(** C97: relabeling a network hands over everything of the old origin, and nothing else. *)
Definition handed (onew old w : Z) : Z := if w =? old then onew else w.
Theorem C97_relabel d n onew old :
  let d' := net_relabel d n onew old in
  (forall i, value_at d' (PNet n) i = option_map (fun r => (fst r, handed onew old (snd r))) (value_at d (PNet n) i)) /\
  (forall i, value_at d' (PDef n) i = option_map (fun r => (fst r, handed onew old (snd r))) (value_at d (PDef n) i)) /\
  (forall k i, value_at d' (PNeigh n k) i = option_map (fun r => (fst r, handed onew old (snd r))) (value_at d (PNeigh n k) i)) /\
  (forall k a, dst_at d' n k a = option_map (handed onew old) (dst_at d n k a)) /\
  (forall k a, ip_at d' n k a = option_map (handed onew old) (ip_at d n k a)) /\
  (forall a, peer_at d' n a = option_map (handed onew old) (peer_at d n a)) /\
  (forall m, m <> n -> shell d' m = shell d m /\ forall k, ne_at d' m k = ne_at d m k) /\ log d' = log d.
Proof.
  cbv zeta. destruct (net_relabel_views d n onew old) as [SH NE].
  split; [|split; [|split; [|split; [|split; [|split; [|split]]]]]].
  - intros i. rewrite !value_net, SH, str_eqb_refl. destruct (shell d n) as [s|]; [|reflexivity]. cbn [option_map fst snd]. apply vget_relabel.
  - intros i. rewrite !value_def, SH, str_eqb_refl. destruct (shell d n) as [s|]; [|reflexivity]. cbn [option_map fst snd]. apply vget_relabel.
  - intros k i. rewrite !value_neigh, NE, str_eqb_refl. destruct (ne_at d n k) as [ne|]; [|reflexivity]. cbn [option_map relabel_neigh ne_data]. apply vget_relabel.
  - intros k a. unfold dst_at. rewrite NE, str_eqb_refl. destruct (ne_at d n k) as [ne|]; [|reflexivity]. cbn [option_map relabel_neigh ne_dst]. apply relabel_find.
  - intros k a. unfold ip_at. rewrite NE, str_eqb_refl. destruct (ne_at d n k) as [ne|]; [|reflexivity]. cbn [option_map relabel_neigh ne_ips]. apply relabel_find.
  - intros a. rewrite !peer_shell, SH, str_eqb_refl. destruct (shell d n) as [s|]; [|reflexivity]. cbn [option_map fst snd]. apply relabel_find.
  - intros m N. split; [rewrite SH|intros k; rewrite NE]; destruct (str_sp n m); congruence.
  - unfold net_relabel. apply upd_net_log.
Qed.
Example C97_ex_relabel : peer_at (net_relabel world wlan0 7 3) wlan0 host = Some 7 /\ ip_at (net_relabel world wlan0 7 3) wlan0 k1 net10 = Some 2.
Proof. split; vm_compute; reflexivity. Qed.

(** ** C98: values of neighbors with defaults, and commits *)

(** C98: a query finds the value of the neighbor, or the default of the network
    if asked to, and nothing if neither is there. *)
Theorem C98_query d n a i dflt :
  let own := value_at d (PNeigh n (plain_key a)) i in let def := value_at d (PDef n) i in
  (forall r, own = Some r -> exists x, neigh_query d n a i dflt = Some x /\ reading x = Some r) /\
  (forall r, own = None -> dflt = true -> def = Some r -> exists x, neigh_query d n a i dflt = Some x /\ reading x = Some r) /\
  (own = None -> dflt = false \/ def = None -> neigh_query d n a i dflt = None).
Proof.
  cbv zeta. rewrite value_neigh, value_def. unfold neigh_query, ne_at, shell.
  assert (forall l r, vget l i = Some r -> exists x, value_or l i = Some x /\ reading x = Some r) as VS.
  { intros l r. unfold vget, value_or. destruct (zget l i) as [x|]; [|discriminate]. unfold reading at 1, has_value. intros Q. exists x.
    split; [destruct (d_org x), (d_meta x); try discriminate; reflexivity|]. exact Q. }
  assert (forall l, vget l i = None -> value_or l i = None) as VN.
  { intros l. unfold vget, value_or. destruct (zget l i) as [x|]; [|reflexivity]. unfold reading, has_value. destruct (d_org x), (d_meta x); try discriminate; reflexivity. }
  destruct (net_at d n) as [nt|]; cbn [option_map shell_of fst snd]; [|split; [discriminate|split; [discriminate|reflexivity]]].
  destruct (tfind key_eqb (nt_neighs nt) (plain_key a)) as [ne|].
  - split; [|split].
    + intros r Q. destruct (VS _ r Q) as (x & -> & R). eauto.
    + intros r Q -> D. rewrite (VN _ Q). apply VS, D.
    + intros Q [-> | D]; rewrite (VN _ Q); [reflexivity|]. rewrite (VN _ D). destruct dflt; reflexivity.
  - split; [discriminate|]. split; [intros r _ -> D; apply VS, D|]. intros _ [-> | D]; [reflexivity|]. rewrite (VN _ D). destruct dflt; reflexivity.
Qed.
(** C98: [oonf_layer2_neigh_get_data] of an existing neighbor *)
Theorem C98_get_data d n k i : has d (ONeigh n k) ->
  let own := value_at d (PNeigh n k) i in let def := value_at d (PDef n) i in
  match own, def with
  | Some r, _ | None, Some r => exists x, neigh_get_data d n k i = Some x /\ reading x = Some r
  | None, None => neigh_get_data d n k i = None
  end.
Proof.
  cbn [has]. intros H. cbv zeta. rewrite value_neigh, value_def. unfold neigh_get_data.
  assert (forall l, match vget l i with Some r => exists x, value_or l i = Some x /\ reading x = Some r | None => value_or l i = None end) as V.
  { intros l. unfold vget, value_or. destruct (zget l i) as [x|]; [|reflexivity]. unfold reading, has_value. destruct (d_org x) eqn:O, (d_meta x) eqn:M; try reflexivity.
    exists x. split; [reflexivity|]. rewrite O, M. reflexivity. }
  destruct (ne_at d n k) as [ne|] eqn:E; [|easy]. destruct (ne_at_net d n k ne E) as (nt & EN & _). unfold shell. rewrite EN. cbn [option_map shell_of fst snd].
  pose proof (V (ne_data ne)) as V1. pose proof (V (nt_ndata nt)) as V2. destruct (vget (ne_data ne) i).
  - destruct V1 as (x & -> & R). eauto.
  - rewrite V1. destruct (vget (nt_ndata nt) i); exact V2.
Qed.
Example C98_ex : (exists x, neigh_query world wlan0 mac1 6 true = Some x /\ d_val x = 200) /\ (exists x, neigh_query world wlan0 mac1 7 true = Some x /\ d_val x = 400) /\
  neigh_query world wlan0 mac1 7 false = None /\ neigh_query world wlan0 mac1 8 true = None.
Proof. repeat split; try (eexists; split); vm_compute; reflexivity. Qed.
(** C98: a commit removes a neighbor with nothing in it; otherwise it reports a
    change and leaves the database as it is. *)
Theorem C98_commit prio d n k : reached prio d -> has d (ONeigh n k) ->
  let d' := snd (neigh_commit d n k) in
  (neigh_of (fun _ => True) d n k -> d' = emit d Changed (ONeigh n k) /\ fst (neigh_commit d n k) = false) /\
  (~ neigh_of (fun _ => True) d n k -> (forall x, has d' x <-> has d x /\ x <> ONeigh n k) /\ fst (neigh_commit d n k) = true).
Proof.
  intros R H. cbv zeta. cbn [has] in H. destruct (ne_at d n k) as [ne|] eqn:E; [|easy]. pose proof (reached_inv prio d R) as IV. pose proof (hollow_iff d n k ne E) as HO.
  destruct (neigh_commit_spec d n k ne IV E) as (_ & [B1 B2] & F). split.
  - intros Q. apply HO in Q. rewrite Q in F. split; [|exact F]. unfold neigh_commit in *. rewrite E in *.
    destruct (((match ne_dst ne, ne_ips ne with [], [] => false | _, _ => true end) || existsb has_value (ne_data ne))); [reflexivity|cbn in F; discriminate].
  - intros Q. destruct (hollow ne) eqn:HE; [|exfalso; apply Q, HO; reflexivity]. split; [|exact F].
    assert (ne_dst ne = [] /\ ne_ips ne = []) as [ED EI] by (unfold hollow in HE; destruct (ne_dst ne); [destruct (ne_ips ne); [auto|discriminate]|discriminate]).
    intros [m|m j|m j a|m j a|m a]; cbn [has]; unfold dst_at, ip_at; rewrite ?peer_shell, <- ?shell_net, ?B1, ?B2.
    + split; [intros X; split; [exact X|discriminate]|tauto].
    + destruct (str_sp n m) as [<-|N]; cbn [andb]; [destruct (key_sp k j) as [<-|N]|]; (split; [intros X; split; [easy|congruence]|intros [X1 X2]; easy]).
    + destruct (str_sp n m) as [<-|N]; cbn [andb]; [destruct (key_sp k j) as [<-|N]|]; [rewrite E, ED; cbn; tauto| |]; (split; [intros X; split; [exact X|discriminate]|tauto]).
    + destruct (str_sp n m) as [<-|N]; cbn [andb]; [destruct (key_sp k j) as [<-|N]|]; [rewrite E, EI; cbn; tauto| |]; (split; [intros X; split; [exact X|discriminate]|tauto]).
    + split; [intros X; split; [exact X|discriminate]|tauto].
Qed.

(** ** C99: best match *)

(** C99: the search for the neighbor responsible for an address succeeds if and
    only if there is a prefix that contains the address, and finds one of the
    shortest such prefixes.  Missing: the longest prefix (false, see below). *)
Theorem C99_match_partial prio d addr : reached prio d -> na_wf addr -> (forall n k a, has d (OIp n k a) -> na_wf a /\ na_plen a <= 128) ->
  exists r, best_neighbor_match d addr = Some r /\
  match r with
  | Some (n, k, a) => has d (OIp n k a) /\ member a addr /\ forall n' k' a', has d (OIp n' k' a') -> member a' addr -> na_plen a <= na_plen a'
  | None => forall n k a, has d (OIp n k a) -> ~ member a addr
  end.
Proof.
  intros R WA H. pose proof (reached_inv prio d R) as (W & _ & _).
  assert (forall x, In x (all_ips d) -> na_wf (snd x) /\ na_plen (snd x) <= 128) as H'.
  { intros [[n k] a] I0. apply (H n k). cbn [has]. apply (all_ips_in d n k a W), I0. }
  destruct (best_loop_spec addr (all_ips d) WA H' None 256) as (r & E & Q). exists r. split; [exact E|].
  destruct Q as [(-> & Q)|([[n k] a] & -> & I0 & M & _ & Q)].
  - intros n k a I0 M. apply (all_ips_in d n k a W) in I0. specialize (Q _ I0 M). specialize (H' _ I0). cbn [snd] in *. lia.
  - split; [apply (all_ips_in d n k a W), I0|]. split; [exact M|]. intros n' k' a' I1 M'. apply (all_ips_in d n' k' a' W) in I1. exact (Q _ I1 M').
Qed.
Ltac wf_addr := split; [reflexivity|split; [unfold all_bytes; repeat first [apply Forall_nil | apply Forall_cons; [unfold is_u8; cbn; lia|]]|split; unfold is_u8, host, net10, net101, AF_INET; cbn; lia]].
Example C99_ex : reached (fun o => o) world /\ na_wf host /\ (forall n k a, has world (OIp n k a) -> na_wf a /\ na_plen a <= 128) /\
  best_neighbor_match world host = Some (Some (wlan0, k1, net10)) /\ best_neighbor_match world mac1 = Some None.
Proof.
  split; [exact world_reached|]. split; [wf_addr|]. split; [|split; vm_compute; reflexivity].
  intros n k a H. apply (all_ips_in world n k a (proj1 (reached_inv _ _ world_reached))) in H.
  assert (all_ips world = [(wlan0, k1, net10); (wlan0, k2, net101)]) as E by (vm_compute; reflexivity). rewrite E in H.
  destruct H as [H|[H|[]]]; injection H as _ _ <-; (split; [wf_addr|cbn; lia]).
Qed.
(** C99: traffic for 10.1.2.3 goes to the neighbor of 10.0.0.0/8 although another one has 10.1.0.0/16. *)
Theorem C99_longest_refuted : exists prio d addr n k a n' k' a', reached prio d /\ best_neighbor_match d addr = Some (Some (n, k, a)) /\
  has d (OIp n' k' a') /\ is_in_subnet a' addr = Some true /\ na_plen a < na_plen a'.
Proof.
  exists (fun o => o), world, host, wlan0, k1, net10, wlan0, k2, net101. split; [exact world_reached|]. split; [vm_compute; reflexivity|].
  split; [vm_compute; discriminate|]. split; vm_compute; reflexivity.
Qed.

Print Assumptions C96_listener_partial.
Print Assumptions C96_trees_partial.
Print Assumptions C96_parents.
Print Assumptions C96_shutdown_partial.
Print Assumptions C96_long_name_refuted.
Print Assumptions C97_values.
Print Assumptions C97_destinations.
Print Assumptions C97_addresses.
Print Assumptions C97_neighbors.
Print Assumptions C97_networks.
Print Assumptions C97_peers_partial.
Print Assumptions C97_listener.
Print Assumptions C97_peer_stays_refuted.
Print Assumptions C97_peer_lost_refuted.
Print Assumptions C97_overwritten_refuted.
Print Assumptions C97_destination_owner_refuted.
Print Assumptions C97_relabel.
Print Assumptions C98_query.
Print Assumptions C98_get_data.
Print Assumptions C98_commit.
Print Assumptions C99_match_partial.
Print Assumptions C99_longest_refuted.
