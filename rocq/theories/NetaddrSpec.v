(** Specification vocabulary for network addresses: bit strings. *)
From Verif Require Import Base BitsModel BitsSpec NetaddrModel.

(** A well-formed object: 16 address bytes, one byte family and prefix length. *)
Definition na_wf (a : netaddr) : Prop :=
  length (na_addr a) = 16%nat /\ all_bytes (na_addr a) /\ is_u8 (na_type a) /\ is_u8 (na_plen a).

(** Bytes of an address family, from the documentation of the families. *)
Definition family_bytes (t : Z) : option Z :=
  if t =? AF_INET then Some 4 else if t =? AF_INET6 then Some 16
  else if t =? AF_MAC48 then Some 6 else if t =? AF_EUI64 then Some 8
  else if t =? AF_UUID then Some 16 else None.

(** [a] and [b] agree on their first [p] bits. *)
Definition agree (p : Z) (a b : bytes) : Prop := forall i, 0 <= i < p -> bit_at a i = bit_at b i.

(** The set of addresses a prefix denotes. *)
Definition member (net h : netaddr) : Prop :=
  na_type net = na_type h /\ agree (na_plen net) (na_addr net) (na_addr h).

(** The byte string of a contiguous netmask with [p] one bits. *)
Definition mask_byte (p i : Z) : Z :=
  if 8 * i + 8 <=? p then 255 else if p <=? 8 * i then 0 else 256 - 2 ^ (8 - (p - 8 * i)).
Definition contiguous_mask (p : Z) : bytes := map (mask_byte p) (zrange 0 16).

(** Decision rule of an ACL, on sets of addresses. *)
Definition in_any (l : list netaddr) (a : netaddr) : Prop := exists n, In n l /\ member n a.

Definition acl_accepts (a : acl) (x : netaddr) : Prop :=
  if acl_reject_first a
  then ~ in_any (acl_reject a) x /\ (in_any (acl_accept a) x \/ acl_accept_default a = true)
  else in_any (acl_accept a) x \/ (~ in_any (acl_reject a) x /\ acl_accept_default a = true).

(** What a list of ACL words means: keywords set the policy (the last one
    counts), words with a leading '-' go to the reject list, all others
    (without a leading '+') to the accept list, in order. *)
From Verif Require Import StrBase.
Definition acl_kws : list bytes :=
  [zs "default_accept"; zs "default_reject"; zs "first_accept"; zs "first_reject"].
Definition is_kw (w : bytes) : bool := existsb (strcase_eqb w) acl_kws.
Definition is_neg (w : bytes) : bool := match w with 45 :: _ => true | _ => false end.
Definition strip_sign (w : bytes) : bytes := match w with 45 :: r => r | 43 :: r => r | _ => w end.
Definition acc_words (l : list bytes) := map strip_sign (filter (fun w => negb (is_kw w) && negb (is_neg w)) l).
Definition rej_words (l : list bytes) := map strip_sign (filter (fun w => negb (is_kw w) && is_neg w) l).
(** [yes]/[no]: the last of the two keywords in the list decides *)
Definition last_flag (yes no : bytes) (l : list bytes) (d : bool) : bool :=
  fold_left (fun d w => if strcase_eqb w yes then true else if strcase_eqb w no then false else d) l d.

(** Address bytes behind the family's length are zero. *)
Definition canonical (a : netaddr) : Prop :=
  exists n, family_bytes (na_type a) = Some n /\ forall i, n <= i < 16 -> zget (na_addr a) i = Some 0.

(** What the C library promises about inet_ntop/inet_pton. *)
Definition hexcolon (c : Z) : Prop := 48 <= c <= 57 \/ 97 <= c <= 102 \/ c = 58 \/ c = 46.
Definition inet4_ok (ntop : bytes -> bytes) (pton : bytes -> option bytes) : Prop :=
  forall b, length b = 4%nat -> all_bytes b ->
    pton (ntop b) = Some b /\ (length (ntop b) <= 15)%nat /\
    (exists l r, l <> [] /\ ntop b = l ++ 46 :: r) /\ Forall (fun c => 48 <= c <= 57 \/ c = 46) (ntop b).
Definition inet6_ok (ntop : bytes -> bytes) (pton : bytes -> option bytes) : Prop :=
  forall b, length b = 16%nat -> all_bytes b ->
    pton (ntop b) = Some b /\ (length (ntop b) <= 45)%nat /\ Forall hexcolon (ntop b) /\
    ((exists l r, ntop b = l ++ 58 :: 58 :: r) \/ count_occ Z.eq_dec (ntop b) 58 = 7%nat).
