(** Specification of the topology database (C79-C84). *)
From Verif Require Import Base CodecModel CodecSpec TcModel.
From Verif Require DomModel.

(** ** Consistency (C80) *)

(** [e] is in the tree of edges of node [n], [a] in the tree of attachments of
    node [n] or of endpoint [p] *)
Definition has_edge (d : db) (n e : Z) : Prop := exists x, d_nodes d n = Some x /\ In e (n_edges x).
Definition has_att (d : db) (n a : Z) : Prop := exists x, d_nodes d n = Some x /\ In a (n_atts x).
Definition ep_att (d : db) (p a : Z) : Prop := exists x, d_eps d p = Some x /\ In a (p_atts x).

Record consistent (d : db) : Prop := {
  (* the tree has exactly the existing nodes, and no two with the same address *)
  c_tree : NoDup (d_tree d) /\ forall n, In n (d_tree d) <-> d_nodes d n <> None;
  c_addr : forall n m x y, d_nodes d n = Some x -> d_nodes d m = Some y -> n_addr x = n_addr y -> n = m;
  c_nodup : forall n x, d_nodes d n = Some x -> NoDup (n_edges x) /\ NoDup (n_atts x);
  (* the edges are exactly those in the trees of their source *)
  c_src : forall e x, d_edges d e = Some x -> has_edge d (e_src x) e;
  c_hooked : forall n e, has_edge d n e -> exists x, d_edges d e = Some x /\ e_src x = n;
  (* every edge has an inverse between the same nodes; one of both was announced *)
  c_inv : forall e x, d_edges d e = Some x -> exists y,
    d_edges d (e_inv x) = Some y /\ e_inv y = e /\ e_src y = e_dst x /\ e_dst y = e_src x /\
    (e_virt x = true -> e_virt y = false);
  c_self : forall e x, d_edges d e = Some x -> e_src x <> e_dst x;
  c_one : forall e f x y, d_edges d e = Some x -> d_edges d f = Some y ->
    e_src x = e_src y -> e_dst x = e_dst y -> e = f;
  (* the attachments are exactly those in the trees of their node and endpoint *)
  c_att : forall a x, d_atts d a = Some x -> has_att d (a_src x) a /\ ep_att d (a_dst x) a;
  c_att_n : forall n a, has_att d n a -> exists x, d_atts d a = Some x /\ a_src x = n;
  c_att_p : forall p a, ep_att d p a -> exists x, d_atts d a = Some x /\ a_dst x = p;
  c_att_one : forall a b x y, d_atts d a = Some x -> d_atts d b = Some y ->
    a_src x = a_src y -> a_dst x = a_dst y -> a = b;
  (* endpoints have an attachment, and no two have the same key *)
  c_eptree : NoDup (d_eptree d) /\ forall p, In p (d_eptree d) <-> d_eps d p <> None;
  c_key : forall p q x y, d_eps d p = Some x -> d_eps d q = Some y -> p_key x = p_key y -> p = q;
  c_ep : forall p x, d_eps d p = Some x -> NoDup (p_atts x) /\ p_atts x <> [] }.

(** ** Histories *)

Definition byte (b : Z) : Prop := 0 <= b < 256.
(** A message as the reader delivers it. *)
Definition wf_addr (a : ain) : Prop :=
  (forall e b0 b1, In (e, (b0, b1)) (i_metric a) -> byte b0 /\ byte b1) /\
  match i_type a with Some b => byte b | None => True end /\
  match i_gw a with Some (_, v, _) => v <> [] /\ Forall byte v | None => True end.
Definition wf_msg (m : tcmsg) : Prop :=
  0 <= m_ansn m < 65536 /\ 0 <= m_vtime m /\ forall a, In a (m_addrs m) -> i_ok a = true -> wf_addr a.

(** Things that can happen: messages, active timers fire, existing neighbors get
    an originator (that is taken from the neighbor that has it) or are removed,
    routes to existing endpoints are updated. *)
Definition input (w : world) (o : op) : Prop :=
  match o with
  | Message m => wf_msg m
  | Timeout n => exists x, d_nodes (w_db w) n = Some x /\ n_valid x <> None
  | NbAdd i => w_nb w i = None
  | NbSet i o j =>
    w_nb w i <> None /\
    match j with
    | Some j => j <> i /\ o <> None /\ w_nb w j = Some o
    | None => o = None \/ forall k, k <> i -> w_nb w k <> Some o
    end
  | NbRemove i => w_nb w i <> None
  | Route p => d_eps (w_db w) p <> None
  end.

(** Addresses announced as originators of neighbors. *)
Definition announces (m : tcmsg) (a : ain) : Prop :=
  In a (m_addrs m) /\ i_ok a = true /\ exists b, i_type a = Some b /\ Z.land b 1 <> 0.

(** ... without a TC that announces its own originator, without TCs that lack a
    mandatory TLV (unless the last TC was processed to its end), and without
    routes to endpoints with several attachments. *)
Definition safe (w : world) (o : op) : Prop :=
  input w o /\
  match o with
  | Message m =>
    match m_ok m, c_node (w_sess w) with
    | true, _ => forall a, announces m a -> i_addr a <> m_orig m
    | false, None => True
    | false, Some _ => False
    end
  | Route p => forall x, d_eps (w_db w) p = Some x -> zlen (p_atts x) <= 1
  | _ => True
  end.
Fixpoint guarded (G : world -> op -> Prop) (ds : list DomModel.dom) (w : world) (ops : list op) : Prop :=
  match ops with
  | [] => True
  | o :: ops' => G w o /\ match step ds w o with Some w' => guarded G ds w' ops' | None => True end
  end.

(** ** Content (C81-C84) *)

(** Node [n] announces a neighbor with the address [B]: there is an edge that is
    not virtual, with costs [c] and ANSN [s]. *)
Definition link (d : db) (n B : Z) (c : list Z) (s : Z) : Prop :=
  exists e y z, d_edges d e = Some y /\ e_src y = n /\ e_virt y = false /\ e_cost y = c /\ e_ansn y = s /\
                d_nodes d (e_dst y) = Some z /\ n_addr z = B.
(** ... announces the prefix with route key [K]. *)
Definition attached (d : db) (n K s : Z) : Prop :=
  exists a y p, d_atts d a = Some y /\ a_src y = n /\ a_ansn y = s /\ d_eps d (a_dst y) = Some p /\ p_key p = K.

(** The outgoing cost in domain [i] after the LINK_METRIC TLVs [l]: the last one
    for the extension of the domain with the flag for the outgoing neighbor
    metric (RFC 7181 section 6.2). *)
Definition out_cost (ds : list DomModel.dom) (l : list (Z * (Z * Z))) (i c : Z) : Prop :=
  (exists d l1 b0 b1 l2, zget ds i = Some d /\ l = l1 ++ (DomModel.d_ext d, (b0, b1)) :: l2 /\ Z.land b0 16 <> 0 /\
     c = metric_value (256 * (b0 mod 16) + b1) /\ forall e0 e1, In (DomModel.d_ext d, (e0, e1)) l2 -> Z.land e0 16 = 0) \/
  ((forall d e0 e1, zget ds i = Some d -> In (DomModel.d_ext d, (e0, e1)) l -> Z.land e0 16 = 0) /\ c = METRIC_INFINITE).
Definition costs (ds : list DomModel.dom) (l : list (Z * (Z * Z))) (c : list Z) : Prop :=
  zlen c = MAXDOM /\ forall i x, zget c i = Some x -> out_cost ds l i x.

(** An address with the originator of a neighbor, a routable address, a gateway
    (with [n] MPR types in use). *)
Definition is_neighbor (a : ain) : Prop := i_ok a = true /\ exists b, i_type a = Some b /\ Z.land b 1 <> 0.
Definition is_routable (a : ain) : Prop := i_ok a = true /\ exists b, i_type a = Some b /\ Z.land b 1 = 0 /\ Z.land b 2 <> 0.
Definition is_gateway (n : Z) (a : ain) (K : Z) : Prop :=
  i_ok a = true /\ exists ext v, i_gw a = Some (ext, v, K) /\ 0 <= ext <= 2 /\ (zlen v = 1 \/ n <= zlen v).
(** The message lists neighbor [B], prefix [K]. *)
Definition lists_neighbor (l : list ain) (B : Z) : Prop := exists a, In a l /\ is_neighbor a /\ i_addr a = B.
Definition lists_prefix (n : Z) (l : list ain) (K : Z) : Prop :=
  exists a, In a l /\ ((is_routable a /\ i_key a = K) \/ is_gateway n a K).
(** The costs of the last listing of [B]. *)
Definition last_costs (ds : list DomModel.dom) (l : list ain) (B : Z) (c : list Z) : Prop :=
  exists l1 a l2, l = l1 ++ a :: l2 /\ is_neighbor a /\ i_addr a = B /\ costs ds (i_metric a) c /\ ~ lists_neighbor l2 B.

(** The router [a] is known with ANSN [s]: there is a node whose validity time
    has not passed. *)
Definition known (d : db) (a s : Z) : Prop :=
  exists n x, d_nodes d n = Some x /\ n_addr x = a /\ n_valid x <> None /\ n_ansn x = s.
(** The TC is one that this router uses, when it is not outdated. *)
Definition usable (m : tcmsg) : Prop :=
  m_ok m = true /\ m_tests m = true /\ (m_ext m = 0 \/ m_ext m = 1) /\ m_process m = true.
(** The ANSN of the message is not older than the known one.  For an incomplete TC
    it has to be newer than the known one. *)
Definition up_to_date (d : db) (m : tcmsg) : Prop :=
  if m_ext m =? 0 then forall s, known d (m_orig m) s -> ~ exists k, 1 <= k <= 32768 /\ ahead s (m_ansn m) k
  else exists s, known d (m_orig m) s /\ exists k, 1 <= k <= 32767 /\ ahead (m_ansn m) s k.
(** The number of MPR types of the message. *)
Definition types_of (ds : list DomModel.dom) (m : tcmsg) : Z := match m_types m with None => 1 | Some _ => zlen ds end.

(** Router [A] announces neighbor [B] with costs [c], prefix [K]. *)
Definition announced (d : db) (A B : Z) (c : list Z) : Prop :=
  exists n x s, d_nodes d n = Some x /\ n_addr x = A /\ link d n B c s.
Definition prefix (d : db) (A K : Z) : Prop :=
  exists n x s, d_nodes d n = Some x /\ n_addr x = A /\ attached d n K s.

(** ... is known for another [v] milliseconds; announces [K] with costs [c] and distances [h]. *)
Definition valid_for (d : db) (A v : Z) : Prop := exists n x, d_nodes d n = Some x /\ n_addr x = A /\ n_valid x = Some v.
Definition reached_at (d : db) (A K : Z) (c h : list Z) : Prop :=
  exists n x a y p, d_nodes d n = Some x /\ n_addr x = A /\ d_atts d a = Some y /\ a_src y = n /\ d_eps d (a_dst y) = Some p /\ p_key p = K /\
                    a_cost y = c /\ a_dist y = h.

(** ... and TCs with a validity time *)
Definition timed (w : world) (o : op) : Prop :=
  safe w o /\ match o with Message m => m_vtime m <> 0 | _ => True end.
(** ... and neighbors keep their originator until they are removed *)
Definition steady (w : world) (o : op) : Prop :=
  timed w o /\
  match o with
  | NbSet i o j => w_nb w i = Some None \/ w_nb w i = Some o
  | _ => True
  end.

(** Address [a] is the one of a node kept for a neighbor. *)
Definition direct (d : db) (a : Z) : Prop := exists n x, d_nodes d n = Some x /\ n_addr x = a /\ n_direct x = true.
Definition nb_nodes (w : world) : Prop := forall i a, w_nb w i = Some (Some a) -> direct (w_db w) a.
Definition nb_only (w : world) : Prop := forall a, direct (w_db w) a -> exists i, w_nb w i = Some (Some a).

(** Nodes without validity time are there for a neighbor or because another node
    announces them; they announce nothing themselves. *)
Definition tidy (d : db) : Prop := forall n x, d_nodes d n = Some x -> n_valid x = None ->
  (forall B c s, ~ link d n B c s) /\ (forall K s, ~ attached d n K s) /\
  (n_direct x = true \/ exists m c s, link d m (n_addr x) c s).
