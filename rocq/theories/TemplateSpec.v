(** Specification of the template language of template.c. *)
From Verif Require Import Base StrBase StringSpec TemplateModel.

(** a format is a sequence of units: a character, or a backslash and the
    character that it protects *)
Inductive Unit : bytes -> Prop :=
| Unit_char : forall c, c <> 37 -> c <> 92 -> Unit [c]
| Unit_esc : forall c, Unit [92; c].
Inductive Units : bytes -> Prop :=
| Units_nil : Units []
| Units_cons : forall u r, Unit u -> Units r -> Units (u ++ r).

(** the entry a name stands for: the first with this key *)
Definition Names (data : list tentry) (name : bytes) (d : tentry) : Prop :=
  name <> [] /\ te_key d = name /\
  exists before after, data = before ++ d :: after /\ forall e, In e before -> te_key e <> name.
Definition Unknown (data : list tentry) (name : bytes) : Prop :=
  name = [] \/ forall e, In e data -> te_key e <> name.

(** [Subst data show f out n]: [out] is the format [f] with the [n] names of
    known keys between percent signs replaced by [show] of their entries *)
Inductive Subst (data : list tentry) (show : tentry -> bytes) : bytes -> bytes -> Z -> Prop :=
| Subst_nil : Subst data show [] [] 0
| Subst_unit : forall u f out n, Unit u -> Subst data show f out n -> Subst data show (u ++ f) (u ++ out) n
| Subst_backslash : Subst data show [92] [92] 0
| Subst_key : forall name d f out n, Units name -> Names data name d -> Subst data show f out n ->
    Subst data show (37 :: name ++ 37 :: f) (show d ++ out) (n + 1)
| Subst_unknown : forall name f out n, Units name -> Unknown data name -> Subst data show f out n ->
    Subst data show (37 :: name ++ 37 :: f) (37 :: name ++ 37 :: out) n
| Subst_open : forall name, Units name -> Subst data show (37 :: name) (37 :: name) 0
| Subst_open_backslash : forall name, Units name -> Subst data show (37 :: name ++ [92]) (37 :: name ++ [92]) 0.

Definition show_value (d : tentry) : bytes := match te_value d with Some v => v | None => [] end.
Definition show (keys : bool) : tentry -> bytes := if keys then te_key else show_value.

(** values separated by tabs *)
Fixpoint tabbed (l : list bytes) : bytes :=
  match l with [] => [] | [v] => v | v :: l' => v ++ [9] ++ tabbed l' end.
