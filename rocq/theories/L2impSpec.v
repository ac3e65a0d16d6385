(** What the import of layer2 addresses should do (C165). *)
From Verif Require Import Base CodecModel L2impModel.

(** the name of the origin is the pattern, or begins with what stands before its asterisk *)
Definition matching (origin pattern : list Z) : Prop :=
  origin = pattern \/ exists p r, pattern = p ++ [42] /\ origin = p ++ r.
Definition covers (s : sec) (d : Z) (n : nip) : Prop :=
  matching (n_origin n) (c_name s) /\ (c_domain s = d \/ c_domain s < 0).
(** metric and distance for an address: of the last section, in the order of names *)
Definition wanted (cm : Z -> nip -> Z) (ss : list sec) (d : Z) (n : nip) (v : Z * Z) : Prop :=
  exists p s r, ss = p ++ s :: r /\ covers s d n /\ (forall x, In x r -> ~ covers x d n) /\
    v = (if c_metric s <? 1 then cm d n else c_metric s, c_dist s).
(** sections are for domains that exist *)
Definition secs_ok (doms : list Z) (ss : list sec) : Prop := forall s, In s ss -> c_domain s < 0 \/ In (c_domain s) doms.
(** events of addresses: different ones have different values, only present ones are
    removed; the addresses present afterwards *)
Inductive history : list op -> list nip -> Prop :=
| h_nil : history [] []
| h_add : forall os ns n, history os ns -> (forall x, In x ns -> n_ip x <> n_ip n) -> history (os ++ [Add n]) (n :: ns)
| h_remove : forall os n p r, history os (p ++ n :: r) -> history (os ++ [Remove n]) (p ++ r).
