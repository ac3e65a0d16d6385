(** Import of the addresses of layer2 neighbors as attached networks:
    src/olsrv2/olsrv2_l2import/olsrv2_l2import.c.

    Simplifications: addresses are numbers; the metric computed from layer2 data is a
    function of domain and address; names of sections have less than 24 characters, so
    [strscpy] does not cut them; [cfg_schema_tobin] does not fail and memory does not run
    out.  The attached networks are those of olsrv2_lan.c (105-184) as a function of domain
    and address.  A NULL domain is used as a pointer (olsrv2_lan.c:132,173): the program
    ends, [None] (in the removal the code gets there only if the address is attached
    for some domain; the model ends in any case). *)
From Verif Require Import Base CodecModel.
From Verif Require RmodModel.

(** olsrv2_l2import.c:66-81 [struct _l2export_data] *)
Record sec := mkSec { c_name : list Z; c_domain : Z; c_metric : Z; c_dist : Z }.
(** oonf_layer2.h [struct oonf_layer2_neighbor_address] with the name of its origin *)
Record nip := mkNip { n_ip : Z; n_origin : list Z }.
Definition ann : Type := Z -> Z -> option (Z * Z).
Definition none : ann := fun _ _ => None.
Definition set (d ip : Z) (v : option (Z * Z)) (a : ann) : ann :=
  fun d' ip' => if (d' =? d) && (ip' =? ip) then v else a d' ip'.

Fixpoint str_eqb (a b : list Z) : bool :=
  match a, b with [], [] => true | x :: a, y :: b => (x =? y) && str_eqb a b | _, _ => false end.
(** olsrv2_l2import.c:233-247 [_is_matching_origin]; 42 is the asterisk *)
Definition is_matching (origin pattern : list Z) : bool :=
  if str_eqb origin pattern then true
  else if (zlen pattern =? 0) || negb (last pattern 0 =? 42) then false
  else str_eqb (firstn (length pattern - 1) origin) (removelast pattern).

(** the domains a section is for: olsrv2_l2import.c:260-267 and 286-311 *)
Definition targets (doms : list Z) (s : sec) : option (list Z) :=
  if c_domain s >=? 0 then if existsb (Z.eqb (c_domain s)) doms then Some [c_domain s] else None else Some doms.
(** olsrv2_l2import.c:288-294 and 301-307; RFC7181_METRIC_MIN is 1 *)
Definition metric_of (cm : Z -> nip -> Z) (s : sec) (d : Z) (n : nip) : Z :=
  if c_metric s <? 1 then cm d n else c_metric s.
Fixpoint each (doms : list Z) (ss : list sec) (n : nip) (f : sec -> Z -> option (Z * Z)) (a : ann) : option ann :=
  match ss with
  | [] => Some a
  | s :: r =>
    if is_matching (n_origin n) (c_name s) then
      match targets doms s with
      | None => None
      | Some ds => each doms r n f (fold_left (fun a d => set d (n_ip n) (f s d) a) ds a)
      end
    else each doms r n f a
  end.
(** olsrv2_l2import.c:249-270 [_remove_l2neighip_lans] *)
Definition remove_lans (doms : list Z) (ss : list sec) (n : nip) (a : ann) : option ann := each doms ss n (fun _ _ => None) a.
(** olsrv2_l2import.c:272-313 [_cb_l2neigh_ip_added] *)
Definition ip_added (cm : Z -> nip -> Z) (doms : list Z) (ss : list sec) (n : nip) (a : ann) : option ann :=
  each doms ss n (fun s d => Some (metric_of cm s d n, c_dist s)) a.

(** the sections in the order of the tree, the addresses of the layer2 database *)
Record state := mkState { s_secs : list sec; s_nips : list nip; s_ann : ann }.
Definition init : state := mkState [] [] none.
Fixpoint insert (s : sec) (l : list sec) : list sec :=
  match l with
  | [] => [s]
  | x :: r => if RmodModel.name_eqb (c_name s) (c_name x) then mkSec (c_name x) (c_domain s) (c_metric s) (c_dist s) :: r
              else if RmodModel.name_ltb (c_name s) (c_name x) then s :: l else x :: insert s r
  end.
(** olsrv2_l2import.c:210-231 [_destroy_l2export]: the section leaves the tree first *)
Fixpoint remove_all (doms : list Z) (ss : list sec) (ns : list nip) (a : ann) : option ann :=
  match ns with
  | [] => Some a
  | n :: r => match remove_lans doms ss n a with Some a' => remove_all doms ss r a' | None => None end
  end.
Definition destroy (doms : list Z) (name : list Z) (st : state) : option state :=
  let ss := filter (fun x => negb (RmodModel.name_eqb (c_name x) name)) (s_secs st) in
  match remove_all doms ss (filter (fun n => str_eqb (n_origin n) name) (s_nips st)) (s_ann st) with
  | Some a => Some (mkState ss (s_nips st) a)
  | None => None
  end.
Inductive op := Add (n : nip) | Remove (n : nip) | Section (s : sec) | Gone (name : list Z).
Definition nip_eqb (a b : nip) : bool := (n_ip a =? n_ip b) && str_eqb (n_origin a) (n_origin b).
Fixpoint take_out (n : nip) (l : list nip) : list nip :=
  match l with [] => [] | x :: r => if nip_eqb n x then r else x :: take_out n r end.
(** the events of the class of layer2 addresses (olsrv2_l2import.c:139-145) and
    323-353 [_cb_cfg_changed] *)
Definition step (cm : Z -> nip -> Z) (doms : list Z) (st : state) (o : op) : option state :=
  match o with
  | Add n => match ip_added cm doms (s_secs st) n (s_ann st) with
             | Some a => Some (mkState (s_secs st) (n :: s_nips st) a)
             | None => None
             end
  | Remove n => match remove_lans doms (s_secs st) n (s_ann st) with
                | Some a => Some (mkState (s_secs st) (take_out n (s_nips st)) a)
                | None => None
                end
  | Section s => Some (mkState (insert s (s_secs st)) (s_nips st) (s_ann st))
  | Gone name => destroy doms name st
  end.
Fixpoint run (cm : Z -> nip -> Z) (doms : list Z) (st : state) (os : list op) : option state :=
  match os with [] => Some st | o :: r => match step cm doms st o with Some st' => run cm doms st' r | None => None end end.
