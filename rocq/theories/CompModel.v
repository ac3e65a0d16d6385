(** Model of src/libcommon/avl_comp.c, the comparators of the AVL trees. *)
From Verif Require Import Base StrBase NetaddrModel.

(** avl_comp.c:57-70, 78-91, 99-112, 120-133 [avl_comp_uint32], [avl_comp_int32],
    [avl_comp_uint16], [avl_comp_uint8]: the same body on values of the key type *)
Definition comp_int (k1 k2 : Z) : Z := if k1 >? k2 then 1 else if k2 >? k1 then -1 else 0.

(** avl_comp.c:151-156 [avl_comp_netaddr_socket], netaddr.h:387-389: memcmp over
    the bytes of the union (128 bytes of sockaddr_storage) *)
Definition comp_socket (s1 s2 : bytes) : Z := memcmp s1 s2.

(** avl_comp.c:164-167 [avl_comp_strcasecmp]: strcasecmp(3) in the "C" locale;
    strings are lists of non-zero bytes, the end compares as 0 *)
Fixpoint strcasecmp (a b : bytes) : Z :=
  match a, b with
  | [], [] => 0
  | [], y :: _ => 0 - tolower y
  | x :: _, [] => tolower x - 0
  | x :: a', y :: b' => if tolower x =? tolower y then strcasecmp a' b' else tolower x - tolower y
  end.
