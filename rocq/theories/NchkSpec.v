(** When a HELLO message is well-formed (C164; RFC 6130, 4.3 and 12.1). *)
From Verif Require Import Base NchkModel.

Definition at_most_one (ty : Z) (l : list tlv) : Prop :=
  forall p t q u r, l = p ++ t :: q ++ u :: r -> t_type t = ty -> t_type u <> ty.
Definition len1 (ty : Z) (l : list tlv) : Prop := forall t, In t l -> t_type t = ty -> t_len t = 1.
Definition present (ty : Z) (l : list tlv) : Prop := exists t, In t l /\ t_type t = ty.

Definition header_ok (h : hello) : Prop :=
  (h_addrlen h = 4 \/ h_addrlen h = 16) /\ (forall n, h_hoplimit h = Some n -> n = 1) /\ (forall n, h_hopcount h = Some n -> n = 0).
(** exactly one VTIME, at most one ITIME, which is not longer *)
Definition times_ok (l : list tlv) : Prop :=
  present 1 l /\ at_most_one 1 l /\ len1 1 l /\ at_most_one 0 l /\ len1 0 l /\
  forall i v, In i l -> In v l -> t_type i = 0 -> t_type v = 1 -> t_val i <= t_val v.
(** LOCAL_IF, LINK_STATUS and OTHER_NEIGHB at most once with one byte; LOCAL_IF alone *)
Definition address_ok (l : list tlv) : Prop :=
  (forall ty, ty = 2 \/ ty = 3 \/ ty = 4 -> at_most_one ty l /\ len1 ty l) /\
  (present 2 l -> ~ present 3 l /\ ~ present 4 l).
Definition well_formed (h : hello) : Prop :=
  header_ok h /\ times_ok (h_tlvs h) /\ forall a, In a (h_addrs h) -> address_ok a.
