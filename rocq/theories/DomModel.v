(** Model of the domain data of NHDP: src/nhdp/nhdp/nhdp_domain.c (willingness,
    MPR and metric TLVs, neighbor metrics), the metric TLVs of
    src/nhdp/nhdp/nhdp_writer.c and the domain specific part of
    src/nhdp/nhdp/nhdp_reader.c.

    A domain is its position in [_domain_list]: domains are only added at the
    tail with [index = _domain_counter++] and never removed before shutdown
    (nhdp_domain.c:1090-1134).  [None] is an access outside of an array. *)
From Verif Require Import Base CodecModel.

Notation "'do' x <- a ; b" := (match a with Some x => b | None => None end)
  (at level 200, x pattern, a at level 100, b at level 200).

(** include/oonf/nhdp/nhdp/nhdp.h:73, rfc5444_iana.h:156-171, 305-324 *)
Definition MAXDOM : Z := 4.
Definition WILL_NEVER : Z := 0.
Definition WILL_MASK : Z := 0xf.
Definition WILL_SHIFT : Z := 4.
Definition MPR_FLOODING : Z := 1.
Definition INCOMING_LINK : Z := 128.
Definition OUTGOING_LINK : Z := 64.
Definition INCOMING_NEIGH : Z := 32.
Definition OUTGOING_NEIGH : Z := 16.

(** include/oonf/nhdp/nhdp/nhdp_db.h:77-92 link status *)
Inductive status := Pending | Lost | Heard | Symmetric.

(** nhdp_domain.h:227-262 [struct nhdp_domain]: extension, local willingness,
    [metric->no_default_handling], start values of the metric.  The temporary
    willingness is a list beside the domains ([tmp] below). *)
Record dom := mkDom {
  d_ext : Z; d_will : Z; d_nodef : bool;
  d_lin : Z; d_lout : Z }.   (* incoming_link_start, outgoing_link_start *)

(** nhdp_db.h:130-157 [struct nhdp_neighbor_domaindata]; the best link is its
    position in the list of links of the neighbor *)
Record ndata := mkND {
  n_in : Z; n_out : Z; n_best : option Z; n_bestm : Z;
  n_will : Z; n_lmpr : bool; n_nmpr : bool }.

(** nhdp_db.h:159-168 [struct nhdp_l2hop_domaindata] *)
Record tdata := mkTD { t_in : Z; t_out : Z; t_last : Z }.

(** nhdp_db.h:173-256 [struct nhdp_link], the fields of domains only; each
    two-hop neighbor is its array of domain data *)
Record lnk := mkL {
  k_status : status; k_fwill : Z; k_lfmpr : bool; k_nfmpr : bool;
  k_data : list (Z * Z);          (* incoming, outgoing metric *)
  k_2hop : list (list tdata) }.

(** nhdp_db.h:299-352 [struct nhdp_neighbor] *)
Record nb := mkNB { nb_data : list ndata; nb_links : list lnk }.

(** The node: domains, willingness of the flooding domain, temporary
    willingness (flooding, domains), neighbors, [_node_is_selected_as_mpr].  *)
Record node := mkNode {
  g_doms : list dom; g_fwill : Z; g_ftmp : Z; g_tmp : list Z;
  g_nbs : list nb; g_mpr : bool }.

(** ** TLVs sent *)

(** nhdp_domain.c:762-775 [nhdp_domain_encode_mprtypes_tlvvalue]: loop *)
Fixpoint enc_types (buf : bytes) (count size : Z) (ds : list dom) : option (bytes * Z) :=
  match ds with
  | [] => Some (buf, count)
  | d :: r =>
    do buf' <- zset buf count (d_ext d) ;
    if size <=? count + 1 then Some (buf', count + 1) else enc_types buf' (count + 1) size r
  end.

(** nhdp_domain.c:785-818 [nhdp_domain_encode_mpr_tlvvalue]: loop over the
    domains from index [i]; the result 0 of line 801 ends it *)
Fixpoint enc_mpr_loop (buf : bytes) (len size i : Z) (nd : list ndata) (ds : list dom) : option (bytes * Z) :=
  match ds with
  | [] => Some (buf, len)
  | d :: r =>
    let bit := Z.land (i + 1) 7 in
    let byte := Z.shiftr (i + 1) 3 in
    if size <=? byte then Some (buf, 0) else
    let len' := if len <? byte + 1 then byte + 1 else len in
    do x <- zget nd i ;
    do buf' <- (if n_nmpr x then do b <- zget buf byte ; zset buf byte (u8 (Z.lor b (Z.shiftl 1 bit)))
                else Some buf) ;
    enc_mpr_loop buf' len' size (i + 1) nd r
  end.
Definition enc_mpr (size : Z) (ds : list dom) (nd : list ndata) (l : lnk) : option (bytes * Z) :=
  let buf := repeat 0 (Z.to_nat size) in
  do buf' <- (if k_nfmpr l then do b <- zget buf 0 ; zset buf 0 (Z.lor b MPR_FLOODING) else Some buf) ;
  enc_mpr_loop buf' 0 size 0 nd ds.

(** nhdp_domain.c:827-865 [nhdp_domain_encode_willingness_tlvvalue]; -1 is
    SIZE_MAX *)
Fixpoint enc_will_loop (buf : bytes) (len size i : Z) (ds : list dom) : option (bytes * Z) :=
  match ds with
  | [] => Some (buf, len)
  | d :: r =>
    let idx := (i + 1) / 2 in
    if size <=? idx then Some (buf, u64 (-1)) else
    let len' := if len <? idx + 1 then idx + 1 else len in
    let v := Z.land (d_will d) WILL_MASK in
    let v' := if Z.land i 1 =? 0 then u8 (Z.shiftl v WILL_SHIFT) else v in
    do b <- zget buf idx ;
    do buf' <- zset buf idx (Z.lor b v') ;
    enc_will_loop buf' len' size (i + 1) r
  end.
Definition enc_will (size : Z) (ds : list dom) (fwill : Z) : option (bytes * Z) :=
  do buf <- zset (repeat 0 (Z.to_nat size)) 0 fwill ;
  enc_will_loop buf 0 size 0 ds.

(** the bytes of a TLV value of length [len] taken from a buffer *)
Definition tlv_value (x : bytes * Z) : option bytes :=
  if snd x <=? zlen (fst x) then Some (firstn (Z.to_nat (snd x)) (fst x)) else None.

(** nhdp_writer.c:267-276 [_cb_addMessageTLVs]: the MPRTYPES TLV (only for
    more than one domain; a type is stored in an uint8_t) and the willingness *)
Definition hello_tlvs (ds : list dom) (fwill : Z) : option (option bytes * bytes) :=
  do ty <- enc_types (repeat 0 (Z.to_nat MAXDOM)) 0 MAXDOM ds ;
  do types <- tlv_value ty ;
  do wi <- enc_will MAXDOM ds fwill ;
  do will <- tlv_value wi ;
  Some (if 1 <? u8 (snd ty) then Some types else None, will).

(** nhdp_writer.c:389-395 [_add_link_address]: MPR TLV of an address of a link *)
Definition hello_mpr (ds : list dom) (nd : list ndata) (l : lnk) : option (option bytes) :=
  do x <- enc_mpr MAXDOM ds nd l ;
  if snd x =? 0 then Some None else do v <- tlv_value x ; Some (Some v).

(** nhdp_writer.c:422-511 [_write_metric_tlv].  First part (450-479): the four
    metrics (0 = not sent) and their encodings; an encoding error ends the
    function ([None] of the inner option). *)
Definition metric_cap (m : Z) : Z := if METRIC_MAX <? m then 0 else m.
Fixpoint enc_metrics (ms : list Z) : option (list (option (Z * Z))) :=
  match ms with
  | [] => Some []
  | m :: r =>
    if 0 <? m then
      match metric_encode m with
      | MetricOk b0 b1 => do e <- enc_metrics r ; Some (Some (b0, b1) :: e)
      | _ => None
      end
    else do e <- enc_metrics r ; Some (None :: e)
  end.
Definition flag_of (i : Z) : option Z := zget [INCOMING_LINK; OUTGOING_LINK; INCOMING_NEIGH; OUTGOING_NEIGH] i.
Definition same_code (a b : option (Z * Z)) : bool :=
  match a, b with
  | Some (a0, a1), Some (b0, b1) => (a0 =? b0) && (a1 =? b1)
  | _, _ => false
  end.
(** nhdp_writer.c:499-506: loop over j = 3 .. i+1 ([n] steps left) *)
Fixpoint merge_metrics (n : nat) (j i : Z) (e : list (option (Z * Z))) (ms : list Z) (b0 : Z)
  : option (list Z * Z) :=
  match n with
  | O => Some (ms, b0)
  | S n' =>
    do m <- zget ms j ;
    do ei <- zget e i ;
    do ej <- zget e j ;
    if (0 <? m) && same_code ei ej then
      do f <- flag_of j ;
      do ms' <- zset ms j 0 ;
      merge_metrics n' (j - 1) i e ms' (metric_set_flag b0 f)
    else merge_metrics n' (j - 1) i e ms b0
  end.
(** nhdp_writer.c:481-510: loop over i = 0 .. 3 ([n] steps left) *)
Fixpoint write_metrics_loop (n : nat) (i : Z) (e : list (option (Z * Z))) (ms : list Z)
  : option (list (Z * Z)) :=
  match n with
  | O => Some []
  | S n' =>
    do m <- zget ms i ;
    if m =? 0 then write_metrics_loop n' (i + 1) e ms
    else
      do ei <- zget e i ;
      match ei with
      | None => None          (* uninitialised code *)
      | Some (b0, b1) =>
        do f <- flag_of i ;
        do r <- merge_metrics (Z.to_nat (3 - i)) 3 i e ms (metric_set_flag b0 f) ;
        do t <- write_metrics_loop n' (i + 1) e (fst r) ;
        Some ((snd r, b1) :: t)
      end
  end.
(** the values of the LINK_METRIC TLVs written for the four metrics (incoming
    and outgoing of the link, incoming and outgoing of the neighbor) *)
Definition write_metrics (ms : list Z) : option (list (Z * Z)) :=
  let ms' := map metric_cap ms in
  match enc_metrics ms' with
  | None => Some []
  | Some e => write_metrics_loop 4 0 e ms'
  end.
(** nhdp_writer.c:397-411, 440-462: the metrics written for an address of a
    link ([l], heard or symmetric) and of a symmetric neighbor ([n]) *)
Definition metrics_of (i : Z) (l : option lnk) (n : option nb) : option (list Z) :=
  do lm <- match l with
           | Some l => do m <- zget (k_data l) i ; Some [fst m; snd m]
           | None => Some [0; 0]
           end ;
  do nm <- match n with
           | Some n => do x <- zget (nb_data n) i ; Some [n_in x; n_out x]
           | None => Some [0; 0]
           end ;
  Some (lm ++ nm).

(** ** TLVs received *)

(** nhdp_domain.c:331-341 [nhdp_domain_get_by_ext]: index of the domain *)
Fixpoint get_by_ext (i : Z) (ds : list dom) (ext : Z) : option Z :=
  match ds with
  | [] => None
  | d :: r => if d_ext d =? ext then Some i else get_by_ext (i + 1) r ext
  end.

(** nhdp_domain.c:599-621 [nhdp_domain_process_mprtypes_tlv]; the array
    [mprtypes] has [MAXDOM] elements (nhdp_reader.c:227) *)
Definition process_types (ds : list dom) (tlv : option bytes) : option bytes :=
  match tlv with
  | None => match ds with [] => None | d :: _ => Some [d_ext d] end
  | Some _ =>
    do r <- enc_types (repeat 255 (Z.to_nat MAXDOM)) 0 MAXDOM ds ;
    tlv_value r
  end.

(** nhdp_domain.c:690-733 [nhdp_domain_process_willingness_tlv]: loop over the
    types from index [i]; [tmp] has one element per domain *)
Fixpoint proc_will_loop (ds : list dom) (v : bytes) (i : Z) (types : bytes) (tmp : list Z) : option (list Z) :=
  match types with
  | [] => Some tmp
  | t :: r =>
    match get_by_ext 0 ds t with
    | None => proc_will_loop ds v (i + 1) r tmp
    | Some dx =>
      let idx := (i + 1) / 2 in
      if zlen v <=? idx then proc_will_loop ds v (i + 1) r tmp else
      do b <- zget v idx ;
      let w := if Z.land dx 1 =? 0 then Z.shiftr b WILL_SHIFT else Z.land b WILL_MASK in
      do tmp' <- zset tmp dx w ;
      proc_will_loop ds v (i + 1) r tmp'
    end
  end.
Definition process_will (ds : list dom) (types : bytes) (tlv : option bytes) : option (Z * list Z) :=
  let tmp := map (fun _ => WILL_NEVER) ds in
  match tlv with
  | None => Some (WILL_NEVER, tmp)
  | Some v =>
    do b <- zget v 0 ;
    do tmp' <- proc_will_loop ds v 0 types tmp ;
    Some (Z.land b WILL_MASK, tmp')
  end.

(** write one element of the domain data of a neighbor for each domain *)
Fixpoint each_dom (f : Z -> dom -> ndata -> option ndata) (i : Z) (ds : list dom) (nd : list ndata)
  : option (list ndata) :=
  match ds with
  | [] => Some nd
  | d :: r =>
    do x <- zget nd i ;
    do x' <- f i d x ;
    do nd' <- zset nd i x' ;
    each_dom f (i + 1) r nd'
  end.

Definition set_lmpr (b : bool) (x : ndata) : ndata :=
  mkND (n_in x) (n_out x) (n_best x) (n_bestm x) (n_will x) b (n_nmpr x).
Definition set_nwill (w : Z) (x : ndata) : ndata :=
  mkND (n_in x) (n_out x) (n_best x) (n_bestm x) w (n_lmpr x) (n_nmpr x).
Definition set_nout (m : Z) (x : ndata) : ndata :=
  mkND (n_in x) m (n_best x) (n_bestm x) (n_will x) (n_lmpr x) (n_nmpr x).
Definition set_lfmpr (b : bool) (l : lnk) : lnk :=
  mkL (k_status l) (k_fwill l) b (k_nfmpr l) (k_data l) (k_2hop l).
Definition set_fwill (w : Z) (l : lnk) : lnk :=
  mkL (k_status l) w (k_lfmpr l) (k_nfmpr l) (k_data l) (k_2hop l).
Definition set_kdata (x : list (Z * Z)) (l : lnk) : lnk :=
  mkL (k_status l) (k_fwill l) (k_lfmpr l) (k_nfmpr l) x (k_2hop l).

(** nhdp_domain.c:740-753 [nhdp_domain_store_willingness] *)
Definition store_will (ds : list dom) (ftmp : Z) (tmp : list Z) (l : lnk) (nd : list ndata)
  : option (lnk * list ndata) :=
  do nd' <- each_dom (fun i _ x => do w <- zget tmp i ; Some (set_nwill w x)) 0 ds nd ;
  Some (set_fwill ftmp l, nd').

(** nhdp_domain.c:630-680 [nhdp_domain_process_mpr_tlv] up to the flags of the
    domains *)
Fixpoint proc_mpr_loop (ds : list dom) (v : bytes) (i : Z) (types : bytes) (nd : list ndata)
  : option (list ndata) :=
  match types with
  | [] => Some nd
  | t :: r =>
    match get_by_ext 0 ds t with
    | None => proc_mpr_loop ds v (i + 1) r nd
    | Some dx =>
      let bit := Z.land (i + 1) 7 in
      let byte := Z.shiftr (i + 1) 3 in
      if zlen v <=? byte then proc_mpr_loop ds v (i + 1) r nd else
      do b <- zget v byte ;
      do x <- zget nd dx ;
      do nd' <- zset nd dx (set_lmpr (negb (Z.land b (Z.shiftl 1 bit) =? 0)) x) ;
      proc_mpr_loop ds v (i + 1) r nd'
    end
  end.
Definition process_mpr_flags (ds : list dom) (types : bytes) (tlv : option bytes) (l : lnk) (nd : list ndata)
  : option (lnk * list ndata) :=
  do nd0 <- each_dom (fun _ _ x => Some (set_lmpr false x)) 0 ds nd ;
  match tlv with
  | None => Some (set_lfmpr false l, nd0)
  | Some v =>
    do b <- zget v 0 ;
    do nd1 <- proc_mpr_loop ds v 0 types nd0 ;
    Some (set_lfmpr (negb (Z.land b MPR_FLOODING =? 0)) l, nd1)
  end.

(** nhdp_domain.c:667-677: is any neighbor using this node as MPR? *)
Fixpoint any_lmpr (i : Z) (ds : list dom) (nbs : list nb) : option bool :=
  match ds with
  | [] => Some false
  | _ :: r =>
    let fix go (l : list nb) : option bool :=
      match l with
      | [] => any_lmpr (i + 1) r nbs
      | n :: l' => do x <- zget (nb_data n) i ; if n_lmpr x then Some true else go l'
      end in
    go nbs
  end.

(** write the link [li] of neighbor [ni] and the domain data of the neighbor *)
Definition put (g : node) (ni li : Z) (x : lnk * list ndata) : option node :=
  do n <- zget (g_nbs g) ni ;
  do ls <- zset (nb_links n) li (fst x) ;
  do nbs <- zset (g_nbs g) ni (mkNB (snd x) ls) ;
  Some (mkNode (g_doms g) (g_fwill g) (g_ftmp g) (g_tmp g) nbs (g_mpr g)).
Definition set_gmpr (g : node) (b : bool) : node :=
  mkNode (g_doms g) (g_fwill g) (g_ftmp g) (g_tmp g) (g_nbs g) b.
Definition set_nbs (g : node) (x : list nb) : node :=
  mkNode (g_doms g) (g_fwill g) (g_ftmp g) (g_tmp g) x (g_mpr g).

(** nhdp_domain.c:630-680 [nhdp_domain_process_mpr_tlv] *)
Definition process_mpr (g : node) (types : bytes) (ni li : Z) (tlv : option bytes) : option node :=
  do n <- zget (g_nbs g) ni ;
  do l <- zget (nb_links n) li ;
  do x <- process_mpr_flags (g_doms g) types tlv l (nb_data n) ;
  do g' <- put g ni li x ;
  match tlv with
  | None => Some g'
  | Some _ => do b <- any_lmpr 0 (g_doms g') (g_nbs g') ; Some (set_gmpr g' b)
  end.

(** nhdp_domain.c:440-454 [nhdp_domain_process_metric_linktlv] for the domain
    with index [i] *)
Definition link_tlv (i : Z) (v : Z * Z) (l : lnk) (nd : list ndata) : option (lnk * list ndata) :=
  let m := metric_decode (fst v) (snd v) in
  do l' <- (if metric_has_flag (fst v) INCOMING_LINK then
              do x <- zget (k_data l) i ;
              do y <- zset (k_data l) i (fst x, m) ;
              Some (set_kdata y l)
            else Some l) ;
  do nd' <- (if metric_has_flag (fst v) INCOMING_NEIGH then
               do x <- zget nd i ; zset nd i (set_nout m x)
             else Some nd) ;
  Some (l', nd').

(** nhdp_domain.c:462-478 [nhdp_domain_process_metric_2hoptlv] *)
Definition twohop_tlv (i : Z) (v : Z * Z) (td : list tdata) : option (list tdata) :=
  let m := metric_decode (fst v) (snd v) in
  do td1 <- (if metric_has_flag (fst v) INCOMING_NEIGH then
               do x <- zget td i ; zset td i (mkTD m (t_out x) (t_last x)) else Some td) ;
  if metric_has_flag (fst v) OUTGOING_NEIGH then
    do x <- zget td1 i ; zset td1 i (mkTD (t_in x) m (t_last x))
  else Some td1.

(** nhdp_reader.c:749-763: the loop over the LINK_METRIC TLVs (extension and
    value) of one of our addresses *)
Fixpoint link_tlvs (ds : list dom) (tlvs : list (Z * (Z * Z))) (l : lnk) (nd : list ndata)
  : option (lnk * list ndata) :=
  match tlvs with
  | [] => Some (l, nd)
  | (ext, v) :: r =>
    match get_by_ext 0 ds ext with
    | None => link_tlvs ds r l nd
    | Some i =>
      do d <- zget ds i ;
      if d_nodef d then link_tlvs ds r l nd
      else do x <- link_tlv i v l nd ; link_tlvs ds r (fst x) (snd x)
    end
  end.

(** nhdp_reader.c:734-743: reset before the TLVs are read *)
Fixpoint reset_out (i : Z) (ds : list dom) (kd : list (Z * Z)) : option (list (Z * Z)) :=
  match ds with
  | [] => Some kd
  | _ :: r =>
    do x <- zget kd i ;
    do kd' <- zset kd i (fst x, METRIC_INFINITE) ;
    reset_out (i + 1) r kd'
  end.

(** nhdp_reader.c:724-764 [_process_domainspecific_linkdata]: MPR TLV and
    metric TLVs of one of our own addresses *)
Definition process_linkdata (g : node) (types : bytes) (ni li : Z) (mpr : option bytes)
  (tlvs : list (Z * (Z * Z))) : option node :=
  do n <- zget (g_nbs g) ni ;
  do l <- zget (nb_links n) li ;
  do kd <- reset_out 0 (g_doms g) (k_data l) ;
  do nd <- each_dom (fun _ _ x => Some (set_nout METRIC_INFINITE (set_nwill 0 (set_lmpr false x)))) 0 (g_doms g) (nb_data n) ;
  do g1 <- put g ni li (set_kdata kd l, nd) ;
  do g2 <- process_mpr g1 types ni li mpr ;
  do n2 <- zget (g_nbs g2) ni ;
  do l2 <- zget (nb_links n2) li ;
  do x <- link_tlvs (g_doms g2) tlvs l2 (nb_data n2) ;
  put g2 ni li x.

(** nhdp_reader.c:771-803 [_process_domainspecific_2hopdata] *)
Fixpoint reset_2hop (i : Z) (ds : list dom) (td : list tdata) : option (list tdata) :=
  match ds with
  | [] => Some td
  | d :: r =>
    do td' <- (if d_nodef d then Some td
               else do x <- zget td i ; zset td i (mkTD METRIC_INFINITE METRIC_INFINITE (t_last x))) ;
    reset_2hop (i + 1) r td'
  end.
Fixpoint twohop_tlvs (ds : list dom) (tlvs : list (Z * (Z * Z))) (td : list tdata) : option (list tdata) :=
  match tlvs with
  | [] => Some td
  | (ext, v) :: r =>
    match get_by_ext 0 ds ext with
    | None => twohop_tlvs ds r td
    | Some i =>
      do d <- zget ds i ;
      if d_nodef d then twohop_tlvs ds r td
      else do td' <- twohop_tlv i v td ; twohop_tlvs ds r td'
    end
  end.
Definition process_2hopdata (ds : list dom) (tlvs : list (Z * (Z * Z))) (td : list tdata) : option (list tdata) :=
  do td' <- reset_2hop 0 ds td ; twohop_tlvs ds tlvs td'.

(** ** Neighbor metrics *)

(** nhdp_domain.c:1048-1054: two-hop neighbors of a symmetric link, changed flag *)
Fixpoint touch_2hop (i : Z) (ch : bool) (ts : list (list tdata)) : option (bool * list (list tdata)) :=
  match ts with
  | [] => Some (ch, [])
  | t :: r =>
    do x <- zget t i ;
    do t' <- zset t i (mkTD (t_in x) (t_out x) (t_out x)) ;
    do y <- touch_2hop i (ch || negb (t_out x =? t_last x)) r ;
    Some (fst y, t' :: snd y)
  end.

(** nhdp_domain.c:1027-1055: loop over the links from position [p]; state:
    metric in, metric out, best link, changed *)
Fixpoint best_loop (i p : Z) (ls : list lnk) (min mout : Z) (best : option Z) (ch : bool)
  : option (Z * Z * option Z * bool * list lnk) :=
  match ls with
  | [] => Some (min, mout, best, ch, [])
  | l :: r =>
    match k_status l with
    | Symmetric =>
      do m <- zget (k_data l) i ;
      let '(mout', best') := if snd m <? mout then (snd m, Some p) else (mout, best) in
      let min' := if fst m <? min then fst m else min in
      do y <- touch_2hop i ch (k_2hop l) ;
      do z <- best_loop i (p + 1) r min' mout' best' (fst y) ;
      let '(a, b, c, d, ls') := z in
      Some (a, b, c, d, mkL (k_status l) (k_fwill l) (k_lfmpr l) (k_nfmpr l) (k_data l) (snd y) :: ls')
    | _ =>
      do z <- best_loop i (p + 1) r min mout best ch ;
      let '(a, b, c, d, ls') := z in Some (a, b, c, d, l :: ls')
    end
  end.

(** nhdp_domain.c:1014-1082 [_recalculate_neighbor_metric] for the domain with
    index [i]: changed flag and the neighbor *)
Definition recalculate (i : Z) (n : nb) : option (bool * nb) :=
  do x <- zget (nb_data n) i ;
  do z <- best_loop i 0 (nb_links n) METRIC_INFINITE METRIC_INFINITE None false ;
  let '(min, mout, best, ch, ls) := z in
  do y <- match best with
          | None => Some (ch, n_bestm x)
          | Some p =>
            do l <- zget (nb_links n) p ;
            do m <- zget (k_data l) i ;
            Some (ch || negb (n_bestm x =? snd m), snd m)
          end ;
  do nd <- zset (nb_data n) i (mkND min mout best (snd y) (n_will x) (n_lmpr x) (n_nmpr x)) ;
  Some (fst y, mkNB nd ls).

(** nhdp_domain.c:485-525 [_recalculate_metrics] for all domains and one
    neighbor: the result decides whether the listeners are called *)
Fixpoint recalculate_all (i : Z) (ds : list dom) (n : nb) : option (bool * nb) :=
  match ds with
  | [] => Some (false, n)
  | _ :: r =>
    do x <- recalculate i n ;
    do y <- recalculate_all (i + 1) r (snd x) ;
    Some (fst x || fst y, snd y)
  end.

(** ** New objects *)

(** nhdp_domain.c:343-372 [nhdp_domain_init_link] *)
Fixpoint init_ldata (i : Z) (ds : list dom) (kd : list (Z * Z)) : option (list (Z * Z)) :=
  match ds with
  | [] => Some kd
  | d :: r =>
    do kd' <- (if d_nodef d then zset kd i (d_lin d, d_lout d) else Some kd) ;
    init_ldata (i + 1) r kd'
  end.
Definition init_link (ds : list dom) (st : status) : option lnk :=
  do kd <- init_ldata 0 ds (repeat (METRIC_INFINITE, METRIC_INFINITE) (Z.to_nat MAXDOM)) ;
  Some (mkL st WILL_NEVER false false kd []).

(** nhdp_domain.c:404-431 [nhdp_domain_init_neighbor] *)
Definition init_nb (ds : list dom) : option nb :=
  do nd <- each_dom (fun _ d x => Some (if d_nodef d
                                        then mkND (d_lin d) (d_lout d) (n_best x) (n_bestm x) (n_will x) (n_lmpr x) (n_nmpr x)
                                        else x)) 0 ds
             (repeat (mkND METRIC_INFINITE METRIC_INFINITE None METRIC_INFINITE WILL_NEVER false false) (Z.to_nat MAXDOM)) ;
  Some (mkNB nd []).

(** ** One HELLO *)

(** nhdp_reader.c:455-461 and 840-848 and 977: the domain data which a HELLO sets
    on the link [li] of neighbor [ni] from which it came: MPR types and
    willingness from the message TLVs, then the TLVs of our own address (one
    address only), then the willingness is stored.  The status of the link and the
    neighbor metric ([recalculate_all]) are set afterwards. *)
Definition receive (g : node) (ni li : Z) (ty will mpr : option bytes) (tlvs : list (Z * (Z * Z))) : option node :=
  do types <- process_types (g_doms g) ty ;
  do w <- process_will (g_doms g) types will ;
  do g1 <- process_linkdata (mkNode (g_doms g) (g_fwill g) (fst w) (snd w) (g_nbs g) (g_mpr g)) types ni li mpr tlvs ;
  do n <- zget (g_nbs g1) ni ;
  do l <- zget (nb_links n) li ;
  do x <- store_will (g_doms g1) (g_ftmp g1) (g_tmp g1) l (nb_data n) ;
  put g1 ni li x.

(** nhdp_db.c:233-285 [nhdp_db_neighbor_remove], the domain part: the neighbor
    leaves the global list; nothing else changes here. *)
Definition remove_nb (g : node) (ni : Z) : node :=
  set_nbs g (firstn (Z.to_nat ni) (g_nbs g) ++ skipn (Z.to_nat (ni + 1)) (g_nbs g)).
