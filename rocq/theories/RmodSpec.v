(** What the sections of the route modifier mean. *)
From Verif Require Import Base DijkstraModel RouteModel RmodModel.

(** names that the configuration takes as the same *)
Definition same (a b : bytes) : Prop := map tolower a = map tolower b.
(** the sections that are in force after the changes [os] of the configuration *)
Fixpoint live (os : list (bytes * option mconf)) (n : bytes) (c : mconf) : Prop :=
  match os with
  | [] => False
  | (a, p) :: r => (same a n /\ p = Some c) \/ (~ same a n /\ live r n c)
  end.
(** [os] with the last change first *)
Definition in_force (os : list (bytes * option mconf)) : bytes -> mconf -> Prop := live (rev os).
(** a section is for a route *)
Definition meant_for (plen : Z -> Z) (d k : Z) (c : mconf) : Prop :=
  d = m_domain c /\ (m_plen c = -1 \/ m_plen c = plen k) /\ m_accepts c k = true.
(** alphabetic order without case: [a] ends before [b] or has the smaller character where they differ first *)
Definition before (a b : bytes) : Prop :=
  let l := map tolower in
  (exists x r, l b = l a ++ x :: r) \/ (exists c x y r q, x < y /\ l a = c ++ x :: r /\ l b = c ++ y :: q).
(** what a section asks for: 0 leaves a parameter as it is *)
Definition asked (c : mconf) (p q : rparam) : Prop :=
  p_if q = p_if p /\ p_gw q = p_gw p /\ p_srcip q = p_srcip p /\
  p_table q = (if Z.eq_dec (m_table c) 0 then p_table p else m_table c) /\
  p_proto q = (if Z.eq_dec (m_proto c) 0 then p_proto p else m_proto c) /\
  p_metric q = (if Z.eq_dec (m_dist c) 0 then p_metric p else m_dist c).
Definition short (o : bytes * option mconf) : Prop := (length (fst o) <= 15)%nat.
