(** Model of the plugin for the configuration of attached networks: src/olsrv2/olsrv2_old_lan/old_lan.c.

    Simplifications: addresses are numbers; a line is its destination (truncated prefix) and its parameters, the
    numbers of which are the results of strtoul (unsigned long); whether errno is set when the configuration changes is part of the operation,
    and it stays so during it.  The attached networks of the router are the list of active (domain, key, metric, distance) (olsrv2_lan.c,
    TcwModel.v).  Domains are their extension numbers. *)
From Verif Require Import Base CodecModel.

Inductive word := Metric (n : Z) | Domain (n : Z) | AllDomains | Dist (n : Z) | Source (a : Z) (ok : bool) | Other.
Record line := { n_dst : Z; n_words : list word }.
(** old_lan.c:87-99 [struct _lan_data] and the source prefix of the key *)
Record data := { d_ext : Z; d_metric : Z; d_dist : Z; d_src : Z }.

(** old_lan.c:235-290 [_parse_lan_parameters] *)
Definition defaults : data := {| d_ext := -1; d_metric := 1; d_dist := 2; d_src := 0 |}.
Fixpoint parse (err : bool) (ws : list word) (d : data) : option data :=
  match ws with
  | [] => Some d
  | Metric n :: r =>
    if (u32 n =? 0) && err then None else parse err r {| d_ext := d_ext d; d_metric := u32 n; d_dist := d_dist d; d_src := d_src d |}
  | Domain n :: r =>
    if ((u32 n =? 0) && err) || (u32 n >? 255) then None
    else parse err r {| d_ext := u32 n; d_metric := d_metric d; d_dist := d_dist d; d_src := d_src d |}
  | AllDomains :: r => parse err r {| d_ext := -1; d_metric := d_metric d; d_dist := d_dist d; d_src := d_src d |}
  | Dist n :: r =>
    if (u32 n =? 0) && err then None else parse err r {| d_ext := d_ext d; d_metric := d_metric d; d_dist := u32 n; d_src := d_src d |}
  | Source a ok :: r => if ok then parse err r {| d_ext := d_ext d; d_metric := d_metric d; d_dist := d_dist d; d_src := a |} else None
  | Other :: _ => None
  end.
(** old_lan.c:168-225 [olsrv2_validate_lan] *)
Definition validate (err : bool) (l : line) : bool :=
  match parse err (n_words l) defaults with
  | Some d => (METRIC_MIN <=? d_metric d) && (d_metric d <=? METRIC_MAX) && (d_dist d <=? 255)
  | None => false
  end.

Definition key : Type := Z * Z.
Definition keqb (a b : key) : bool := (fst a =? fst b) && (snd a =? snd b).
Definition net : Type := Z * key * (Z * Z).
Record st := { s_doms : list Z; s_ann : list net }.
(** olsrv2_lan.c:105-155 [olsrv2_lan_add], 162-184 [olsrv2_lan_remove] *)
Definition lan_remove (d : Z) (k : key) (a : list net) : list net :=
  filter (fun x => match x with (d', k', _) => negb ((d' =? d) && keqb k' k) end) a.
Definition lan_set (add : bool) (d : Z) (k : key) (p : data) (a : list net) : list net :=
  if add then (d, k, (d_metric p, u8 (d_dist p))) :: lan_remove d k a else lan_remove d k a.
(** [nhdp_domain_add], src/nhdp/nhdp/nhdp_domain.c (DomRegModel.v): at most 4 domains *)
Definition domain_add (x : Z) (doms : list Z) : option (list Z) :=
  if existsb (Z.eqb x) doms then Some doms else if zlen doms >=? 4 then None else Some (doms ++ [x]).
(** old_lan.c:319-357: one line of [_parse_lan_array] *)
Definition apply (err add : bool) (s : st) (l : line) : st :=
  match parse err (n_words l) defaults with
  | None => s
  | Some p =>
    let k := (n_dst l, d_src p) in
    if d_ext p =? -1 then {| s_doms := s_doms s; s_ann := fold_left (fun a d => lan_set add d k p a) (s_doms s) (s_ann s) |}
    else match domain_add (d_ext p) (s_doms s) with
         | None => s
         | Some doms => {| s_doms := doms; s_ann := lan_set add (d_ext p) k p (s_ann s) |}
         end
  end.
(** old_lan.c:363-370 [_cb_cfg_olsrv2_changed] *)
Definition changed (err : bool) (s : st) (pre post : list line) : st := fold_left (apply err true) post (fold_left (apply err false) pre s).
(** changes of the configuration, each with the state of errno *)
Fixpoint run (s : st) (pre : list line) (os : list (bool * list line)) : st :=
  match os with [] => s | (err, post) :: r => run (changed err s pre post) post r end.
