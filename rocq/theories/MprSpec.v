(** What MPR selection has to achieve (RFC 7181, sections 18.3-18.5), in terms
    of the NHDP database. *)
From Verif Require Import Base MprModel.

(** * Flooding MPRs of interface [i] *)

(** A link which may relay: on the interface, symmetric, with a usable metric
    and to a neighbor willing to relay. *)
Definition relay_link (i : Z) (l : link) : Prop :=
  ml_if l = i /\ ml_sym l = true /\ ml_out l <= METRIC_MAX /\ ml_will l > WILL_NEVER.
(** The two-hop address [y] is reachable through the link with cost [c]. *)
Definition via_link (l : link) (y c : Z) : Prop :=
  exists h, In h (ml_2hop l) /\ l2_addr h = y /\ l2_out h <= METRIC_MAX /\ c = ml_out l + l2_out h.
Definition flood_path (i : Z) (db : list link) (y c : Z) : Prop :=
  exists l, In l db /\ relay_link i l /\ via_link l y c.
(** [c] is the smallest cost over two hops. *)
Definition cheapest (path : Z -> Z -> Prop) (y c : Z) : Prop :=
  path y c /\ forall c', path y c' -> c <= c'.
(** [y] is also an address of a direct neighbor, which is reached with cost [c]. *)
Definition flood_direct (i : Z) (db : list link) (y c : Z) : Prop :=
  exists l, In l db /\ relay_link i l /\ In y (mn_addrs (ml_neigh l)) /\ c = ml_out l.

(** Databases: metrics are 24 bit values, the _2hop trees have no duplicates,
    identities are identities, and an address belongs to one neighbor. *)
Definition l2_ok (h : l2hop) : Prop := 0 <= l2_in h <= METRIC_INFINITE /\ 0 <= l2_out h <= METRIC_INFINITE.
Definition link_ok (l : link) : Prop :=
  0 <= ml_out l <= METRIC_INFINITE /\ Forall l2_ok (ml_2hop l) /\ NoDup (map l2_addr (ml_2hop l)).
Definition links_ok (db : list link) : Prop :=
  Forall link_ok db /\
  (forall a b, In a db -> In b db -> mn_id (ml_neigh a) = mn_id (ml_neigh b) ->
     mn_orig (ml_neigh a) = mn_orig (ml_neigh b)).
(** There is not more than one link per interface and originator. *)
Definition single_links (i : Z) (db : list link) : Prop :=
  forall a b, In a db -> In b db -> ml_if a = i -> ml_if b = i ->
    mn_orig (ml_neigh a) = mn_orig (ml_neigh b) -> a = b.
(** The size of the cost table of the code, (#neighbors) * (#two-hop
    addresses), is a 32 bit number. *)
Definition links_small (db : list link) : Prop :=
  zlen db * zlen (flat_map ml_2hop db) < 4294967296.

(** * Routing MPRs *)
Definition relay_neigh (n : neigh) : Prop :=
  mn_sym n > 0 /\ mn_in n <= METRIC_MAX /\ mn_will n > WILL_NEVER.
Definition via_neigh (n : neigh) (y c : Z) : Prop :=
  exists hs h, In hs (mn_l2 n) /\ In h hs /\ l2_addr h = y /\ l2_in h <= METRIC_MAX /\ c = mn_in n + l2_in h.
Definition route_path (db : list neigh) (y c : Z) : Prop :=
  exists n, In n db /\ relay_neigh n /\ via_neigh n y c.
Definition route_direct (db : list neigh) (y c : Z) : Prop :=
  exists n, In n db /\ relay_neigh n /\ In y (mn_addrs n) /\ c = mn_in n.
Definition neigh_ok (n : neigh) : Prop :=
  0 <= mn_in n <= METRIC_INFINITE /\ Forall (Forall l2_ok) (mn_l2 n).
Definition neighs_ok (db : list neigh) : Prop :=
  Forall neigh_ok db /\ NoDup (map mn_id db) /\ NoDup (map mn_orig db).
(** All links to a neighbor report the same metric for a two-hop address. *)
Definition same_metrics (n : neigh) : Prop :=
  forall hs h hs' h', In hs (mn_l2 n) -> In h hs -> In hs' (mn_l2 n) -> In h' hs' ->
    l2_addr h = l2_addr h' -> l2_in h = l2_in h'.
Definition neighs_small (db : list neigh) : Prop :=
  zlen db * zlen (flat_map (fun n => concat (mn_l2 n)) db) < 4294967296.
