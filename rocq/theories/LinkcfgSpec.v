(** What configured link data should be (C163), without the functions of the model. *)
From Verif Require Import Base L2DataModel LinkcfgModel.

(** a line gives a value to a neighbor, or to the whole network *)
Definition gives (l : line) (m : option Z) (v : Z) : Prop :=
  l_val l = Some v /\ match m with None => l_macs l = [] | Some _ => In m (l_macs l) end.
(** the value of the last line for it *)
Definition configured (c : section) (m : option Z) (i v : Z) : Prop :=
  In i [5; 4; 7; 6; 1] /\
  exists p l r, c i = p ++ l :: r /\ gives l m v /\ forall x w, In x r -> ~ gives x m w.
(** the validator (link_config.c:239-267) lets only parsable lines pass *)
Definition section_ok (c : section) : Prop :=
  forall i l, In l (c i) -> l_val l <> None /\ ~ In None (l_macs l).
(** the value the plugin has put there *)
Definition ours (d : data) (v : Z) : Prop :=
  (d_org d = Some 1 \/ d_org d = Some 2) /\ d_meta d <> None /\ d_val d = v.
Definition no_ours (d : data) : Prop := d_org d <> Some 1 /\ d_org d <> Some 2.
(** nobody with the same or a higher priority has set the value *)
Definition free (fp : Z -> Z) (d : data) : Prop :=
  d_org d <> Some 1 /\ d_org d <> Some 2 /\ forall o, d_org d = Some o -> d_meta d <> None -> fp o < 30.
