From Verif Require Import Base StrBase BufLemmas NetaddrModel NetaddrSpec NetaddrProofs CompModel.

(** What a tree needs from its comparator on keys satisfying [P]: a sign that
    behaves like a total preorder. *)
Definition good_comp {K} (P : K -> Prop) (c : K -> K -> Z) : Prop :=
  (forall a, P a -> c a a = 0) /\
  (forall a b, P a -> P b -> (c a b < 0 <-> c b a > 0)) /\
  (forall a b d, P a -> P b -> P d -> c a b <= 0 -> c b d <= 0 -> c a d <= 0 /\ (c a b < 0 \/ c b d < 0 -> c a d < 0)).

Lemma comp_int_good : good_comp (fun _ : Z => True) comp_int /\ forall a b, comp_int a b = 0 <-> a = b.
Proof.
  unfold good_comp, comp_int. repeat split.
  all: intros; repeat match goal with |- context [?x >? ?y] => destruct (Z.gtb_spec x y) end;
       repeat match goal with H : context [?x >? ?y] |- _ => destruct (Z.gtb_spec x y) end; lia.
Qed.

Lemma comp_int_sign a b : (comp_int a b < 0 <-> a < b) /\ (comp_int a b > 0 <-> a > b).
Proof. unfold comp_int. destruct (Z.gtb_spec a b), (Z.gtb_spec b a); lia. Qed.

Lemma memcmp_good n : good_comp (fun b : bytes => length b = n) memcmp /\
  forall a b, length a = n -> length b = n -> (memcmp a b = 0 <-> a = b).
Proof.
  assert (EQ : forall a b, length a = n -> length b = n -> (memcmp a b = 0 <-> a = b)).
  { intros a b La Lb. split; [apply memcmp_zero; congruence|intros ->; apply memcmp_refl]. }
  split; auto. unfold good_comp. split; [|split].
  - intros; apply memcmp_refl.
  - intros a b _ _. rewrite (memcmp_antisym a b). lia.
  - intros a b d La Lb Ld H1 H2.
    destruct (Z.eq_dec (memcmp a b) 0) as [E|N1].
    { apply EQ in E; auto. subst b. rewrite memcmp_refl. lia. }
    destruct (Z.eq_dec (memcmp b d) 0) as [E|N2].
    { apply EQ in E; auto. subst d. rewrite memcmp_refl. lia. }
    assert (memcmp a d < 0) by (apply (memcmp_trans a b d); try congruence; lia). lia.
Qed.

Lemma na_cmp_good : good_comp na_wf na_cmp.
Proof.
  unfold na_cmp. destruct (memcmp_good 18) as [(A & B & C) _]. split; [|split].
  - intros a Wa. apply A, na_raw_len; auto.
  - intros a b Wa Wb. apply B; apply na_raw_len; auto.
  - intros a b d Wa Wb Wd. apply C; apply na_raw_len; auto.
Qed.

(** strings of the C locale: bytes 1..255 *)
Definition cstr (s : bytes) : Prop := Forall (fun c => 0 < c < 256) s.
Lemma tolower_pos c : 0 < c -> 0 < tolower c.
Proof. unfold tolower. destruct (_ && _); lia. Qed.
Lemma strcasecmp_eq a : forall b, cstr a -> cstr b -> (strcasecmp a b = 0 <-> strcase_eqb a b = true).
Proof.
  unfold strcase_eqb. induction a as [|x a IH]; intros [|y b] Ha Hb; cbn [strcasecmp map str_eqb]; try tauto.
  - inversion_clear Hb as [|? ? Hy _]. pose proof (tolower_pos y ltac:(lia)). split; [lia|discriminate].
  - inversion_clear Ha as [|? ? Hx _]. pose proof (tolower_pos x ltac:(lia)). split; [lia|discriminate].
  - inversion_clear Ha. inversion_clear Hb. destruct (Z.eqb_spec (tolower x) (tolower y)); cbn [andb]; [auto|]. split; [lia|discriminate].
Qed.
Lemma strcasecmp_anti a : forall b, strcasecmp b a = - strcasecmp a b.
Proof.
  induction a as [|x a IH]; intros [|y b]; cbn [strcasecmp]; try lia.
  rewrite (Z.eqb_sym (tolower y)). destruct (Z.eqb_spec (tolower x) (tolower y)); [auto|lia].
Qed.
Lemma strcasecmp_trans a : forall b d, cstr a -> cstr b -> cstr d -> strcasecmp a b <= 0 -> strcasecmp b d <= 0 ->
  strcasecmp a d <= 0 /\ (strcasecmp a b < 0 \/ strcasecmp b d < 0 -> strcasecmp a d < 0).
Proof.
  induction a as [|x a IH]; intros [|y b] [|z d] Ha Hb Hd; cbn [strcasecmp]; intros H1 H2; try lia.
  all: repeat match goal with H : cstr (_ :: _) |- _ => inversion H; clear H; subst end.
  all: repeat match goal with H : 0 < ?c < 256 |- _ => pose proof (tolower_pos c ltac:(lia)); clear H end.
  all: try lia.
  - destruct (Z.eqb_spec (tolower x) (tolower y)), (Z.eqb_spec (tolower y) (tolower z)), (Z.eqb_spec (tolower x) (tolower z)); try lia.
    apply (IH b d); auto.
Qed.
Lemma strcasecmp_good : good_comp cstr strcasecmp /\
  (forall a b, cstr a -> cstr b -> (strcasecmp a b = 0 <-> map tolower a = map tolower b)).
Proof.
  split; [split; [|split]|].
  - intros a Ha. apply strcasecmp_eq; auto. unfold strcase_eqb. apply str_eqb_refl.
  - intros a b _ _. rewrite (strcasecmp_anti a b). lia.
  - intros a b d. apply strcasecmp_trans.
  - intros a b Ha Hb. rewrite strcasecmp_eq by auto. unfold strcase_eqb. apply str_eqb_eq.
Qed.
