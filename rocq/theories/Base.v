(** Shared vocabulary: machine integers as [Z] with explicit wrap, bytes,
    and small list helpers.  Nothing here is specific to /repo. *)
From Coq Require Export ZArith List Bool Lia.
From Coq Require Export ZifyBool ZifyNat ZifyN.
Export ListNotations.
Open Scope Z_scope.

Arguments Z.mul : simpl never.
Arguments Z.add : simpl never.
Arguments Z.sub : simpl never.
Arguments Z.pow : simpl never.
Arguments Z.div : simpl never.
Arguments Z.modulo : simpl never.
Arguments Z.of_nat : simpl never.
Arguments Z.to_nat : simpl never.

(** C conversions to unsigned types. *)
Definition u8 (z : Z) : Z := z mod 256.
Definition u16 (z : Z) : Z := z mod 65536.
Definition u32 (z : Z) : Z := z mod 4294967296.
Definition u64 (z : Z) : Z := z mod 18446744073709551616.

(** C conversion to [int64_t] (two's complement, as all supported compilers do). *)
Definition s64 (z : Z) : Z :=
  let m := u64 z in if m <? 9223372036854775808 then m else m - 18446744073709551616.
(** C conversion to [int32_t]/[int]. *)
Definition s32 (z : Z) : Z :=
  let m := u32 z in if m <? 2147483648 then m else m - 4294967296.

Definition is_u8 (z : Z) : Prop := 0 <= z < 256.
Definition is_u16 (z : Z) : Prop := 0 <= z < 65536.
Definition is_u32 (z : Z) : Prop := 0 <= z < 4294967296.
Definition is_u64 (z : Z) : Prop := 0 <= z < 18446744073709551616.

Notation bytes := (list Z).
Definition all_bytes (l : bytes) : Prop := Forall is_u8 l.

Lemma u8_id z : is_u8 z -> u8 z = z.
Proof. unfold is_u8, u8; intros; apply Z.mod_small; lia. Qed.
Lemma u16_id z : is_u16 z -> u16 z = z.
Proof. unfold is_u16, u16; intros; apply Z.mod_small; lia. Qed.
Lemma u32_id z : is_u32 z -> u32 z = z.
Proof. unfold is_u32, u32; intros; apply Z.mod_small; lia. Qed.
Lemma u64_id z : is_u64 z -> u64 z = z.
Proof. unfold is_u64, u64; intros; apply Z.mod_small; lia. Qed.

Lemma u8_range z : is_u8 (u8 z).
Proof. unfold is_u8, u8; apply Z.mod_pos_bound; lia. Qed.
Lemma u16_range z : is_u16 (u16 z).
Proof. unfold is_u16, u16; apply Z.mod_pos_bound; lia. Qed.
Lemma u32_range z : is_u32 (u32 z).
Proof. unfold is_u32, u32; apply Z.mod_pos_bound; lia. Qed.
Lemma u64_range z : is_u64 (u64 z).
Proof. unfold is_u64, u64; apply Z.mod_pos_bound; lia. Qed.

Global Hint Resolve u8_range u16_range u32_range u64_range : core.

(** [zrange lo n] is the list lo, lo+1, ..., lo+n-1. *)
Fixpoint zrange (lo : Z) (n : nat) : list Z :=
  match n with O => [] | S n' => lo :: zrange (lo + 1) n' end.

Lemma zrange_In lo n x : In x (zrange lo n) <-> lo <= x < lo + Z.of_nat n.
Proof.
  revert lo; induction n as [|n IH]; intros lo; cbn [zrange In].
  - lia.
  - rewrite IH. lia.
Qed.

(** Finite sweeps: a boolean check over a range gives the universal fact. *)
Lemma zsweep (P : Z -> bool) lo n :
  forallb P (zrange lo n) = true -> forall x, lo <= x < lo + Z.of_nat n -> P x = true.
Proof. intros H x Hx. rewrite forallb_forall in H. apply H, zrange_In, Hx. Qed.

Ltac zdm := Z.div_mod_to_equations.

(** * Checked arrays: access outside of the array is [None] *)
Definition zlen {A} (l : list A) : Z := Z.of_nat (length l).
Definition zget {A} (l : list A) (i : Z) : option A :=
  if i <? 0 then None else nth_error l (Z.to_nat i).
Fixpoint set_nth {A} (l : list A) (n : nat) (x : A) : list A :=
  match l, n with
  | [], _ => []
  | _ :: l', O => x :: l'
  | y :: l', S n' => y :: set_nth l' n' x
  end.
Definition zset {A} (l : list A) (i : Z) (x : A) : option (list A) :=
  if (0 <=? i) && (i <? zlen l) then Some (set_nth l (Z.to_nat i) x) else None.

Lemma zlen_nonneg {A} (l : list A) : 0 <= zlen l.
Proof. unfold zlen; lia. Qed.

Lemma zget_Some {A} (l : list A) i : 0 <= i < zlen l -> exists x, zget l i = Some x.
Proof.
  unfold zget, zlen; intros H. destruct (Z.ltb_spec i 0); [lia|].
  destruct (nth_error l (Z.to_nat i)) eqn:E; [eauto|].
  apply nth_error_None in E. lia.
Qed.

Lemma zget_bound {A} (l : list A) i x : zget l i = Some x -> 0 <= i < zlen l.
Proof.
  unfold zget, zlen; intros H. destruct (Z.ltb_spec i 0); [discriminate|].
  assert (nth_error l (Z.to_nat i) <> None) as N by congruence.
  apply nth_error_Some in N. lia.
Qed.

Lemma set_nth_length {A} (l : list A) n x : length (set_nth l n x) = length l.
Proof. revert n; induction l as [|y l IH]; intros [|n]; cbn; auto. Qed.

Lemma zset_len {A} (l l' : list A) i x : zset l i x = Some l' -> zlen l' = zlen l.
Proof.
  unfold zset. destruct (_ && _); [|discriminate]. intros [= <-]. unfold zlen.
  now rewrite set_nth_length.
Qed.

Lemma nth_error_set_nth {A} (l : list A) n m x :
  nth_error (set_nth l n x) m = if (n =? m)%nat then match nth_error l m with Some _ => Some x | None => None end
                                else nth_error l m.
Proof.
  revert n m; induction l as [|y l IH]; intros [|n] [|m]; cbn; auto.
  - now destruct (n =? m)%nat.
Qed.

Lemma zget_zset {A} (l l' : list A) i j x : zset l i x = Some l' ->
  zget l' j = if j =? i then Some x else zget l j.
Proof.
  unfold zset, zget, zlen. destruct (Z.leb_spec 0 i); [|discriminate].
  destruct (Z.ltb_spec i (Z.of_nat (length l))); [|discriminate]. cbn [andb].
  intros [= <-]. destruct (Z.ltb_spec j 0).
  - destruct (Z.eqb_spec j i); [lia|reflexivity].
  - rewrite nth_error_set_nth.
    destruct (Nat.eqb_spec (Z.to_nat i) (Z.to_nat j)), (Z.eqb_spec j i); try lia; [|reflexivity].
    destruct (nth_error l (Z.to_nat j)) eqn:E; [reflexivity|].
    apply nth_error_None in E. lia.
Qed.

Lemma Forall_set_nth {A} (P : A -> Prop) l n x : Forall P l -> P x -> Forall P (set_nth l n x).
Proof.
  intros Hl Hx. revert n; induction Hl as [|y l Hy Hl IH]; intros [|n]; cbn; constructor; auto.
Qed.

Lemma Forall_zset {A} (P : A -> Prop) l l' i x : Forall P l -> P x -> zset l i x = Some l' -> Forall P l'.
Proof.
  unfold zset. destruct (_ && _); [|discriminate]. intros Hl Hx [= <-]. now apply Forall_set_nth.
Qed.

Lemma Forall_zget {A} (P : A -> Prop) (l : list A) i x : Forall P l -> zget l i = Some x -> P x.
Proof.
  unfold zget. destruct (i <? 0); [discriminate|]. intros H E. apply nth_error_In in E.
  rewrite Forall_forall in H. auto.
Qed.
