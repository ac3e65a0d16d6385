(** Specification of the NHDP domain data (C73-C76), independent of the loops of
    the model. *)
From Verif Require Import Base CodecModel CodecSpec DomModel.
From Coq Require Import Permutation.

(** A list of domains that the configuration can create: at least one, at most
    four, with different extensions (bytes) and a willingness from 0 to 15. *)
Definition doms_ok (ds : list dom) : Prop :=
  1 <= zlen ds <= 4 /\ NoDup (map d_ext ds) /\
  Forall (fun d => is_u8 (d_ext d) /\ 0 <= d_will d <= 15) ds.

(** One node has the domains of the other and maybe more, in the same order. *)
Definition agree (a b : list dom) : Prop :=
  exists r, map d_ext a = map d_ext b ++ r \/ map d_ext b = map d_ext a ++ r.

(** The domain data has the size which the C structures have. *)
Definition shape (n : nb) : Prop :=
  zlen (nb_data n) = 4 /\
  Forall (fun l => zlen (k_data l) = 4 /\ Forall (fun t => zlen t = 4) (k_2hop l)) (nb_links n).

(** The willingness which a node with the domains [ds] has for extension [ext]. *)
Definition will_for (ds : list dom) (ext w : Z) : Prop :=
  (exists d, In d ds /\ d_ext d = ext /\ w = d_will d) \/ (~ In ext (map d_ext ds) /\ w = 0).

(** The neighbor [nd] is selected as routing MPR for extension [ext]. *)
Definition selected_for (ds : list dom) (nd : list ndata) (ext : Z) : Prop :=
  exists i d x, zget ds i = Some d /\ d_ext d = ext /\ zget nd i = Some x /\ n_nmpr x = true.

(** Some neighbor selected this node as routing MPR in some domain. *)
Definition is_mpr (ds : list dom) (nbs : list nb) : Prop :=
  exists i n x, 0 <= i < zlen ds /\ In n nbs /\ zget (nb_data n) i = Some x /\ n_lmpr x = true.

(** The value a receiver has for a metric [m] of the sender: the smallest value
    that can be sent and is not better than [m]; infinite when there is none or
    when the sender has no metric. *)
Definition received (m v : Z) : Prop :=
  (1 <= m <= METRIC_MAX /\ exists code, best_metric_code m code /\ v = metric_value code) \/
  (~ 1 <= m <= METRIC_MAX /\ v = METRIC_INFINITE).

(** The TLVs [all] of an address contain for extension [ext] the values [vs], in
    any order. *)
Definition carries (all : list (Z * (Z * Z))) (ext : Z) (vs : list (Z * Z)) : Prop :=
  Permutation (map snd (filter (fun t => fst t =? ext) all)) vs.

(** [m] is the smallest of the values [l] and the infinite metric. *)
Definition least (l : list Z) (m : Z) : Prop :=
  Forall (fun x => m <= x) (METRIC_INFINITE :: l) /\ In m (METRIC_INFINITE :: l).

(** Incoming and outgoing metrics of the symmetric links in domain [i]. *)
Definition sym_links (n : nb) : list lnk :=
  filter (fun l => match k_status l with Symmetric => true | _ => false end) (nb_links n).
Definition metrics_in (i : Z) (n : nb) : list Z :=
  flat_map (fun l => match zget (k_data l) i with Some m => [fst m] | None => [] end) (sym_links n).
Definition metrics_out (i : Z) (n : nb) : list Z :=
  flat_map (fun l => match zget (k_data l) i with Some m => [snd m] | None => [] end) (sym_links n).

(** A two-hop neighbor behind a symmetric link has another outgoing metric than
    at the last calculation. *)
Definition twohop_changed (i : Z) (n : nb) : Prop :=
  exists l t x, In l (sym_links n) /\ In t (k_2hop l) /\ zget t i = Some x /\ t_out x <> t_last x.

(** [p] is the first symmetric link with the outgoing metric [m]. *)
Definition first_link (i : Z) (n : nb) (m p : Z) : Prop :=
  exists l x, zget (nb_links n) p = Some l /\ k_status l = Symmetric /\ zget (k_data l) i = Some x /\ snd x = m /\
  forall q l' x', 0 <= q < p -> zget (nb_links n) q = Some l' -> k_status l' = Symmetric ->
                  zget (k_data l') i = Some x' -> m < snd x'.

(** [l] is the link [li] of the neighbor [n] with position [ni], in a node with
    well-formed domain data. *)
Definition at_link (g : node) (ni li : Z) (n : nb) (l : lnk) : Prop :=
  doms_ok (g_doms g) /\ Forall shape (g_nbs g) /\ zget (g_nbs g) ni = Some n /\ zget (nb_links n) li = Some l.

(** Only the link [li] of neighbor [ni] and the domain data of this neighbor
    are different: the other links, the other neighbors and the domains are the
    same. *)
Definition same_rest (g g' : node) (ni li : Z) (n n' : nb) : Prop :=
  (forall j, j <> li -> zget (nb_links n') j = zget (nb_links n) j) /\
  (forall j, j <> ni -> zget (g_nbs g') j = zget (g_nbs g) j) /\
  zlen (g_nbs g') = zlen (g_nbs g) /\ zlen (nb_links n') = zlen (nb_links n) /\ g_doms g' = g_doms g.

(** Only the metric of the last calculation differs: in domain [i], when the link
    is symmetric ([s]). *)
Definition touched (i : Z) (s : bool) (t t' : list tdata) : Prop :=
  zlen t' = zlen t /\ forall j x, zget t j = Some x -> exists y, zget t' j = Some y /\ t_in y = t_in x /\ t_out y = t_out x /\
    t_last y = if s && (j =? i) then t_out x else t_last x.
Definition is_sym (l : lnk) : bool := match k_status l with Symmetric => true | _ => false end.
Definition lnk_touched (i : Z) (l l' : lnk) : Prop :=
  l' = mkL (k_status l) (k_fwill l) (k_lfmpr l) (k_nfmpr l) (k_data l) (k_2hop l') /\
  Forall2 (touched i (is_sym l)) (k_2hop l) (k_2hop l').
