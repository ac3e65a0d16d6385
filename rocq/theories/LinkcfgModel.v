(** Configured link data: src/generic/link_config/link_config.c.

    Simplifications: interface names and MAC addresses are numbers (only compared); the
    texts of a line are given by the results of [isonumber_to_s64] and
    [netaddr_from_string]; the value is scaled by the scaling of its metadata, so
    [oonf_layer2_data_set_int64] (oonf_layer2.c:368-388) has the factor 1 and is
    [oonf_layer2_data_set]; memory does not run out.  A network or neighbor that does not
    exist is one without any value: creating one or removing an empty one (by a commit)
    changes no value.  Events of the commits only start the timer of the next
    application, see [op]. *)
From Verif Require Import Base L2DataModel.

(** link_config.c:128-135: the two origins, both with the priority CONFIGURED
    (oonf_layer2.h:187); other origins have any number and priority *)
Definition CUR : Z := 1.
Definition OLD : Z := 2.
Definition CONFIGURED : Z := 30.
Definition prio (foreign : Z -> Z) (o : Z) : Z :=
  if o =? CUR then CONFIGURED else if o =? OLD then CONFIGURED else foreign o.

(** a value of the database: network, neighbor ([None]: the default of the network,
    [neighdata]) and index *)
Definition key : Type := Z * option Z * Z.
Definition oeqb (a b : option Z) : bool :=
  match a, b with Some x, Some y => x =? y | None, None => true | _, _ => false end.
Definition keqb (a b : key) : bool :=
  let '(n, m, i) := a in let '(n', m', i') := b in (n =? n') && oeqb m m' && (i =? i').
Definition db : Type := key -> data.
(** oonf_layer2.h:985-988 [oonf_layer2_data_reset] *)
Definition reset (d : data) : data := mkData (d_val d) None None.
Definition empty : db := fun _ => mkData 0 None None.

(** the metadata of an index *)
Definition md (i : Z) : meta := mkMeta i T_INT 1.

(** oonf_layer2.h:356-377: the indices of link_config.c:83-99, in this order *)
Definition RX_SIGNAL : Z := 1.
Definition TX_BITRATE : Z := 4.
Definition RX_BITRATE : Z := 5.
Definition TX_MAX_BITRATE : Z := 6.
Definition RX_MAX_BITRATE : Z := 7.
Definition indices : list Z := [RX_BITRATE; TX_BITRATE; RX_MAX_BITRATE; TX_MAX_BITRATE; RX_SIGNAL].
(** oonf_layer2.h:334 *)
Definition NET_COUNT : Z := 16.

(** a line of the configuration: the number and the addresses; [None] is a text that
    cannot be parsed *)
Record line := mkLine { l_val : option Z; l_macs : list (option Z) }.
(** a section: the lines of each index *)
Definition section : Type := Z -> list line.

(** the call of oonf_layer2.c:341-358 [oonf_layer2_data_set] for one value *)
Definition put (fp : Z -> Z) (i : Z) (d : data) (v : Z) : data :=
  match data_set (prio fp) d CUR (Some (md i)) v with Some (_, d') => d' | None => d end.
Definition set (fp : Z -> Z) (s : Z) (i : Z) (m : option Z) (v : Z) (b : db) : db :=
  fun k => if keqb k (s, m, i) then put fp i (b k) v else b k.

(** link_config.c:308-324: the addresses of a line; a wrong one ends it *)
Fixpoint put_macs (fp : Z -> Z) (s i v : Z) (ms : list (option Z)) (b : db) : db :=
  match ms with
  | [] => b
  | None :: _ => b
  | Some m :: r => put_macs fp s i v r (set fp s i (Some m) v b)
  end.
(** link_config.c:295-324 *)
Definition put_line (fp : Z -> Z) (s i : Z) (b : db) (l : line) : db :=
  match l_val l with
  | None => b
  | Some v => match l_macs l with
              | [] => set fp s i None v b
              | ms => put_macs fp s i v ms b
              end
  end.
(** link_config.c:275-326 [_parse_strarray] *)
Definition parse_strarray (fp : Z -> Z) (s : Z) (ls : list line) (i : Z) (b : db) : db :=
  fold_left (put_line fp s i) ls b.

(** oonf_layer2.c:547-571 [oonf_layer2_net_cleanup] and 868-879
    [oonf_layer2_neigh_cleanup] *)
Definition has_org (d : data) (o : Z) : bool := match d_org d with Some x => x =? o | None => false end.
Definition net_cleanup (n o : Z) (b : db) : db :=
  fun k => let '(n', _, _) := k in if (n' =? n) && has_org (b k) o then reset (b k) else b k.

(** link_config.c:361-383: the new values get the origin of the old ones; the loop
    over the defaults of the network stops at the number of network indices *)
Definition relabel (n : Z) (b : db) : db :=
  fun k => let '(n', m, i) := k in
    if (n' =? n) && has_org (b k) CUR && match m with Some _ => true | None => i <? NET_COUNT end
    then mkData (d_val (b k)) (d_meta (b k)) (Some OLD) else b k.

(** link_config.c:331-389 [_cb_config_changed]; [phy] is [cfg_get_phy_if] (cfg.c:219-228) *)
Definition config_changed (fp : Z -> Z) (phy : Z -> Z) (s : Z) (post : option section) (b : db) : db :=
  let b := match post with
           | None => b
           | Some c => fold_left (fun b i => parse_strarray fp s (c i) i b) indices b
           end in
  relabel (phy s) (net_cleanup (phy s) OLD b).

(** what happens: a changed section of the configuration; an unchanged one, for which
    cfg_schema.c:1067-1068 sets the pointer [post] (but 1101 not the name); the timer of
    link_config.c:213-229, which applies what name and pointer say *)
Inductive op := Change (s : Z) (post : option section) | Unchanged (post : option section) | Timer.
Record state := mkState { st_db : db; st_last : option (Z * option section) }.
Definition init : state := mkState empty None.
Definition step (fp phy : Z -> Z) (st : state) (o : op) : state :=
  match o with
  | Change s p => mkState (config_changed fp phy s p (st_db st)) (Some (s, p))
  | Unchanged p => match st_last st with
                   | Some (s, _) => mkState (st_db st) (Some (s, p))
                   | None => st
                   end
  | Timer => match st_last st with
             | Some (s, p) => mkState (config_changed fp phy s p (st_db st)) (Some (s, p))
             | None => st
             end
  end.
Definition run (fp phy : Z -> Z) (os : list op) : state := fold_left (step fp phy) os init.
