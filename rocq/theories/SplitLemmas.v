(** Checked array operations on concatenations. *)
From Verif Require Import Base BitsModel BufLemmas.

Lemma zset_split {A} (a c : list A) x y i : i = zlen a -> zset (a ++ x :: c) i y = Some (a ++ y :: c).
Proof.
  intros ->. unfold zset. rewrite zlen_app, zlen_cons. pose proof (zlen_nonneg a). pose proof (zlen_nonneg c).
  destruct (Z.leb_spec 0 (zlen a)); [|lia]. destruct (Z.ltb_spec (zlen a) (zlen a + (zlen c + 1))); [|lia]. cbn [andb]. f_equal.
  unfold zlen. rewrite Nat2Z.id. clear. induction a as [|z a IH]; cbn; auto. now rewrite IH.
Qed.
Lemma zget_split {A} (a c : list A) x i : i = zlen a -> zget (a ++ x :: c) i = Some x.
Proof.
  intros ->. rewrite zget_app. destruct (Z.ltb_spec (zlen a) (zlen a)); [lia|]. now rewrite Z.sub_diag.
Qed.
Lemma copy_in_split b' : forall a b c i, i = zlen a -> zlen b = zlen b' -> copy_in (a ++ b ++ c) i b' = Some (a ++ b' ++ c).
Proof.
  induction b' as [|x b' IH]; intros a b c i -> L.
  - destruct b; [reflexivity|]. rewrite zlen_cons, zlen_nil in L. pose proof (zlen_nonneg b). lia.
  - destruct b as [|y b]; [rewrite zlen_cons, zlen_nil in L; pose proof (zlen_nonneg b'); lia|].
    rewrite !zlen_cons in L. cbn [copy_in app]. rewrite (zset_split a (b ++ c) y x (zlen a) eq_refl).
    replace (a ++ x :: b ++ c) with ((a ++ [x]) ++ b ++ c) by (now rewrite <- app_assoc).
    rewrite IH; [now rewrite <- app_assoc | rewrite zlen_app, zlen_cons, zlen_nil; lia | lia].
Qed.
Lemma copy_out_split b : forall a c i, i = zlen a -> copy_out (a ++ b ++ c) i (length b) = Some b.
Proof.
  induction b as [|x b IH]; intros a c i ->; [reflexivity|]. cbn [copy_out length app].
  rewrite (zget_split a (b ++ c) x _ eq_refl).
  replace (a ++ x :: b ++ c) with ((a ++ [x]) ++ b ++ c) by (now rewrite <- app_assoc).
  rewrite IH; [reflexivity|]. rewrite zlen_app, zlen_cons, zlen_nil. lia.
Qed.
Lemma zlen_zero {A} (l : list A) : zlen l = 0 -> l = [].
Proof. destruct l; auto. unfold zlen. cbn. lia. Qed.
(** cut a list into a part of known length and the rest *)
Lemma zsplit {A} (l : list A) n : 0 <= n <= zlen l -> exists a b, l = a ++ b /\ zlen a = n /\ zlen b = zlen l - n.
Proof.
  intros H. exists (firstn (Z.to_nat n) l), (skipn (Z.to_nat n) l). rewrite firstn_skipn. split; auto.
  unfold zlen in *. rewrite firstn_length, skipn_length. lia.
Qed.
Lemma app_inj_len {A} (a b c d : list A) : a ++ b = c ++ d -> zlen a = zlen c -> a = c /\ b = d.
Proof.
  revert c; induction a as [|x a IH]; intros [|y c] E L; cbn in E; rewrite ?zlen_cons, ?zlen_nil in L;
    try (pose proof (zlen_nonneg a)); try (pose proof (zlen_nonneg c)); try lia; auto.
  injection E as -> E. destruct (IH c E) as [-> ->]; [lia|auto].
Qed.
