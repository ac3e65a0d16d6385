(** Specification of and proofs about the start and stop of subsystems. *)
From Verif Require Import Base StrBase SubsModel.

(** ** What is expected *)
(** which subsystems (by lower case names, with their dependencies) are started,
    according to the calls of their callbacks; the last one first *)
Fixpoint active (l : list event) : list (name * list name) :=
  match l with
  | [] => []
  | Started n ds :: l' => (n, ds) :: active l'
  | Failed _ :: l' => active l'
  | Stopped n :: l' => filter (fun x => negb (str_eqb (fst x) n)) (active l')
  end.
Definition is_active (l : list event) (n : name) : Prop := In n (map fst (active l)).
(** a subsystem is started when it is not started and all its dependencies are; it
    is stopped when it is started and no started one depends on it *)
Fixpoint good (l : list event) : Prop :=
  match l with
  | [] => True
  | Started n ds :: l' => good l' /\ ~ is_active l' n /\ forall d, In d ds -> is_active l' d
  | Failed n :: l' => good l' /\ ~ is_active l' n
  | Stopped n :: l' => good l' /\ is_active l' n /\ forall m ds, In (m, ds) (active l') -> ~ In n ds
  end.
(** [b] is [a] or a dependency of it, or of a dependency ... *)
Inductive reach (t : list plug) : name -> name -> Prop :=
| reach_refl a b : key a = key b -> reach t a b
| reach_step a p d b : In p t -> key (p_name p) = key a -> In d (p_deps p) -> reach t d b -> reach t a b.
(** dependencies are spelled as the name of the subsystem is *)
Definition canon (ps : list plug) : Prop := forall p q d, In p ps -> In q ps -> In d (p_deps q) -> key d = key (p_name p) -> d = p_name p.

(** ** Names *)
Lemma str_eqb_spec a : forall b, reflect (a = b) (str_eqb a b).
Proof.
  induction a as [|x a IH]; intros [|y b]; cbn; try (constructor; congruence). destruct (Z.eqb_spec x y); cbn; [|constructor; congruence].
  destruct (IH b); constructor; congruence.
Qed.
Lemma tolower_idem c : tolower (tolower c) = tolower c.
Proof.
  unfold tolower. destruct (Z.leb_spec 65 c); cbn [andb]; [|destruct (Z.leb_spec 65 c); [lia|reflexivity]]. destruct (Z.leb_spec c 90).
  - destruct (Z.leb_spec (c + 32) 90); [lia|]. rewrite andb_false_r. reflexivity.
  - destruct (Z.leb_spec 65 c); [|lia]. destruct (Z.leb_spec c 90); [lia|]. reflexivity.
Qed.
Lemma key_idem n : key (key n) = key n.
Proof. unfold key. rewrite map_map. apply map_ext. exact tolower_idem. Qed.
Lemma keqb_spec a b : reflect (key a = key b) (keqb a b).
Proof. unfold keqb. apply str_eqb_spec. Qed.

(** ** Trees *)
Definition keys (t : list plug) : list name := map (fun p => key (p_name p)) t.
Lemma get_some n t p : get n t = Some p -> In p t /\ key (p_name p) = key n.
Proof.
  unfold get. intros H. apply find_some in H as [A B]. split; [exact A|]. destruct (keqb_spec (p_name p) n); [assumption|discriminate].
Qed.
Lemma get_none n t : get n t = None -> forall p, In p t -> key (p_name p) <> key n.
Proof. unfold get. intros H p I1 E. pose proof (find_none _ _ H p I1) as X. cbv beta in X. destruct (keqb_spec (p_name p) n); congruence. Qed.
Lemma get_in n t p : NoDup (keys t) -> In p t -> key (p_name p) = key n -> get n t = Some p.
Proof.
  unfold get, keys. induction t as [|q t IH]; intros N I1 E; [destruct I1|]. cbn [map] in N. inversion N as [|? ? A B]; subst. cbn [find]. destruct (keqb_spec (p_name q) n) as [K|K].
  - destruct I1 as [->|I1]; [reflexivity|]. exfalso. apply A. rewrite K, <- E. apply (in_map (fun p => key (p_name p))), I1.
  - destruct I1 as [->|I1]; [contradiction|]. apply IH; assumption.
Qed.
Lemma get_key n m t : key n = key m -> get n t = get m t.
Proof. intros E. unfold get. induction t as [|q t IH]; cbn [find]; [reflexivity|]. destruct (keqb_spec (p_name q) n), (keqb_spec (p_name q) m); congruence. Qed.

(** relations between the elements of two trees *)
Definition stat (p q : plug) : Prop := p_name p = p_name q /\ p_deps p = p_deps q /\ p_can p = p_can q /\ p_down p = p_down q /\ p_unl p = p_unl q.
Definition rel (R : plug -> plug -> Prop) : list plug -> list plug -> Prop := Forall2 (fun p q => stat p q /\ R p q).
Lemma rel_imp (R R' : plug -> plug -> Prop) t t' : (forall p q, In p t -> stat p q -> R p q -> R' p q) -> rel R t t' -> rel R' t t'.
Proof.
  intros H F. induction F as [|p q t t' [A B] F IH]; constructor.
  - split; [exact A|]. apply H; [left; reflexivity|assumption|assumption].
  - apply IH. intros; apply H; [right; assumption|assumption|assumption].
Qed.
Lemma stat_refl p : stat p p. Proof. repeat split. Qed.
Lemma stat_trans p q r : stat p q -> stat q r -> stat p r.
Proof. unfold stat. intuition congruence. Qed.
Lemma rel_trans (R1 R2 R3 : plug -> plug -> Prop) t1 t2 t3 : (forall p q r, In p t1 -> stat p q -> stat q r -> R1 p q -> R2 q r -> R3 p r) -> rel R1 t1 t2 -> rel R2 t2 t3 -> rel R3 t1 t3.
Proof.
  intros H F. revert t3. induction F as [|p q t t' [A B] F IH]; intros t3 G; inversion G as [|? r ? t3' [C D] G']; subst; constructor.
  - split; [eapply stat_trans; eassumption|]. eapply H; eauto. left. reflexivity.
  - apply IH; [|exact G']. intros; eapply H; eauto. right. assumption.
Qed.
Lemma rel_refl (R : plug -> plug -> Prop) t : (forall p, In p t -> R p p) -> rel R t t.
Proof. intros H. induction t as [|p t IH]; constructor; [split; [apply stat_refl|apply H; left; reflexivity]|]. apply IH. intros; apply H; right; assumption. Qed.
Lemma rel_upd (R : plug -> plug -> Prop) n f t : (forall p, stat p (f p)) -> (forall p, In p t -> R p (if keqb (p_name p) n then f p else p)) -> rel R t (upd n f t).
Proof.
  intros S1 H. unfold upd. induction t as [|p t IH]; cbn [map]; constructor.
  - split; [|apply H; left; reflexivity]. destruct (keqb (p_name p) n); [apply S1|apply stat_refl].
  - apply IH. intros; apply H; right; assumption.
Qed.
Lemma rel_keys R t t' : rel R t t' -> keys t' = keys t.
Proof. intros F. unfold keys. induction F as [|p q t t' [A B] F IH]; cbn; [reflexivity|]. destruct A as [<- _]. now rewrite IH. Qed.
Lemma rel_in R t t' p : rel R t t' -> In p t -> exists q, In q t' /\ stat p q /\ R p q.
Proof. intros F. induction F as [|a b t t' [A B] F IH]; intros []; [subst; exists b; cbn; auto|]. destruct IH as (q & Q1 & Q2); [assumption|]. exists q. cbn. auto. Qed.
Lemma rel_in' R t t' q : rel R t t' -> In q t' -> exists p, In p t /\ stat p q /\ R p q.
Proof. intros F. induction F as [|a b t t' [A B] F IH]; intros []; [subst; exists a; cbn; auto|]. destruct IH as (p & Q1 & Q2); [assumption|]. exists p. cbn. auto. Qed.
Lemma rel_get R t t' n p : rel R t t' -> get n t = Some p -> exists q, get n t' = Some q /\ stat p q /\ R p q.
Proof.
  intros F. unfold get. induction F as [|a b t t' [A B] F IH]; cbn [find]; [discriminate|]. pose proof A as [E _]. unfold keqb in *. rewrite <- E. destruct (str_eqb (key (p_name a)) (key n)); [|exact IH].
  intros X. injection X as <-. exists b. auto.
Qed.
Lemma rel_get' R t t' n q : rel R t t' -> get n t' = Some q -> exists p, get n t = Some p /\ stat p q /\ R p q.
Proof.
  intros F. unfold get. induction F as [|a b t t' [A B] F IH]; cbn [find]; [discriminate|]. pose proof A as [E _]. unfold keqb in *. rewrite <- E. destruct (str_eqb (key (p_name a)) (key n)); [|exact IH].
  intros X. injection X as <-. exists a. auto.
Qed.
Lemma rel_and (R1 R2 : plug -> plug -> Prop) t t' : rel R1 t t' -> rel R2 t t' -> rel (fun p q => R1 p q /\ R2 p q) t t'.
Proof. intros F. induction F as [|p q t t' [A B] F IHF]; intros SM; inversion SM as [|? ? ? ? [C D] SM']; subst; constructor; [auto|]. apply IHF, SM'. Qed.
Lemma rel_len R t t' : rel R t t' -> length t' = length t.
Proof. intros F. induction F; cbn; congruence. Qed.
Lemma rel_reach R t t' a b : rel R t t' -> reach t' a b -> reach t a b.
Proof.
  intros F H. induction H as [a b E|a p d b I1 K D _ IH]; [constructor; exact E|]. destruct (rel_in' _ _ _ _ F I1) as (q & Q1 & (Q2 & Q3 & _) & _).
  apply (reach_step t a q d b); [exact Q1|congruence|congruence|exact IH].
Qed.
Lemma reach_key t a a' b : key a = key a' -> reach t a b -> reach t a' b.
Proof. intros E H. destruct H as [a b K|a p d b I1 K D H]; [constructor; congruence|]. apply (reach_step t a' p d b); congruence || assumption. Qed.
Lemma reach_trans t a b c : reach t a b -> reach t b c -> reach t a c.
Proof. intros H G. induction H as [a b K|a p d b I1 K D _ IH]; [apply (reach_key t b a c); [congruence|exact G]|]. apply (reach_step t a p d c); auto. Qed.

(** ** The invariant *)
Definition on (t : list plug) (n : name) : Prop := exists p, get n t = Some p /\ p_on p = true.
Record Inv (U : list plug) (s : st) : Prop := {
  i_nodup : NoDup (keys (s_tree s));
  i_known : forall p, In p (s_tree s) -> exists u, In u U /\ p_name u = p_name p /\ p_deps u = p_deps p;
  i_good : good (s_log s);
  i_active : forall k ds, In (k, ds) (active (s_log s)) <-> (exists p, In p (s_tree s) /\ p_on p = true /\ k = key (p_name p) /\ ds = map key (p_deps p));
  i_miss : forall p, In p (s_tree s) -> p_on p = true -> p_miss p = false }.
Lemma active_on U s n : Inv U s -> (is_active (s_log s) (key n) <-> on (s_tree s) n).
Proof.
  intros H. unfold is_active, on. rewrite in_map_iff. split.
  - intros ([k ds] & E & I1). cbn in E. subst k. apply (i_active _ _ H) in I1 as (p & P1 & P2 & P3 & _). exists p. split; [|exact P2]. apply get_in; [apply (i_nodup _ _ H)|exact P1|congruence].
  - intros (p & G & O). apply get_some in G as [G1 G2]. exists (key n, map key (p_deps p)). split; [reflexivity|]. apply (i_active _ _ H). exists p. auto.
Qed.
Lemma active_nodup l : good l -> NoDup (map fst (active l)).
Proof.
  induction l as [|e l IH]; cbn [good active map]; [constructor|]. destruct e as [n ds|n|n].
  - intros (A & B & C). cbn [map fst]. constructor; [exact B|apply IH, A].
  - intros (A & _). apply IH, A.
  - intros (A & _). apply IH in A. revert A. generalize (active l) as x. induction x as [|y x IHx]; cbn [filter map]; [auto|]. intros N. inversion N as [|? ? N1 N2]; subst. match goal with |- context [if ?b then _ else _] => destruct b end; [|apply IHx, N2]. cbn [map]. constructor; [|apply IHx, N2].
    intros X. apply N1. apply in_map_iff in X as (z & Z1 & Z2). apply filter_In in Z2 as [Z2 _]. rewrite <- Z1. apply in_map, Z2.
Qed.
(** dependencies were started earlier *)
Fixpoint ordered (l : list (name * list name)) : Prop :=
  match l with [] => True | (n, ds) :: l' => (forall d, In d ds -> In d (map fst l')) /\ ordered l' end.
Lemma ordered_filter n l : ordered l -> (forall m ds, In (m, ds) l -> ~ In n ds) -> ordered (filter (fun x => negb (str_eqb (fst x) n)) l).
Proof.
  induction l as [|[m ds] l IH]; cbn [ordered filter]; [auto|]. intros [A B] H. specialize (IH B ltac:(intros; eapply H; right; eassumption)).
  match goal with |- context [if ?b then _ else _] => destruct b end; [|exact IH]. cbn [ordered]. split; [|exact IH]. intros d D. pose proof (A d D) as X. apply in_map_iff in X as (y & Y1 & Y2). apply in_map_iff. exists y. split; [exact Y1|]. apply filter_In. split; [exact Y2|].
  destruct (str_eqb_spec (fst y) n) as [Q|Q]; [|reflexivity]. exfalso. apply (H m ds (or_introl eq_refl)). rewrite <- Q, Y1. exact D.
Qed.
Lemma active_ordered l : good l -> ordered (active l).
Proof.
  induction l as [|e l IH]; cbn [good active ordered]; [auto|]. destruct e as [n ds|n|n].
  - intros (A & _ & C). cbn [ordered]. split; [exact C|apply IH, A].
  - intros (A & _). apply IH, A.
  - intros (A & _ & C). apply ordered_filter; [apply IH, A|exact C].
Qed.
Fixpoint pos (k : name) (l : list (name * list name)) : nat :=
  match l with [] => O | (m, _) :: l' => if str_eqb m k then O else S (pos k l') end.
Lemma pos_in k l : In k (map fst l) -> (pos k l < length l)%nat.
Proof. induction l as [|[m ds] l IH]; cbn; [intros []|]. destruct (str_eqb_spec m k); [lia|]. intros [E|H]; [contradiction|]. apply IH in H. lia. Qed.
Lemma pos_dep l m ds k : ordered l -> NoDup (map fst l) -> In (m, ds) l -> In k ds -> (pos m l < pos k l)%nat.
Proof.
  induction l as [|[a as_] l IH]; cbn [ordered map fst pos In]; [intros _ _ []|]. intros [A B] N [E|I1] K; inversion N as [|? ? N1 N2]; subst.
  - injection E as -> ->. destruct (str_eqb_spec m m); [|congruence]. destruct (str_eqb_spec m k) as [Q|Q]; [|lia]. exfalso. subst k. apply N1, A, K.
  - specialize (IH B N2 I1 K). destruct (str_eqb_spec a k) as [Q|Q].
    + exfalso. subst k. apply N1. clear - I1 K B. induction l as [|[b bs] l IHl]; [destruct I1|]. cbn [ordered map fst In] in *. destruct B as [B1 B2]. destruct I1 as [E|I1]; [injection E as -> ->; right; apply B1, K|right; apply IHl; assumption].
    + destruct (str_eqb_spec a m); lia.
Qed.

(** ** Starting *)
Definition free (t : list plug) : nat := length (filter (fun p => negb (p_miss p)) t).
Lemma free_same t t' : rel (fun p q => p_miss q = p_miss p) t t' -> free t' = free t.
Proof. intros F. unfold free. induction F as [|p q t t' [A B] F IH]; cbn [filter]; [reflexivity|]. rewrite B. destruct (negb (p_miss p)); cbn [length]; congruence. Qed.
Lemma free_upd n t : (free (upd n (set_miss true) t) <= free t)%nat.
Proof.
  unfold free, upd. induction t as [|p t IH]; cbn [map filter]; [lia|]. destruct (keqb (p_name p) n); cbn [set_miss p_miss negb].
  - destruct (negb (p_miss p)); cbn [length]; lia.
  - destruct (negb (p_miss p)); cbn [length]; lia.
Qed.
Lemma free_upd_lt n t p : get n t = Some p -> p_miss p = false -> (free (upd n (set_miss true) t) < free t)%nat.
Proof.
  unfold free, upd, get. induction t as [|q t IH]; cbn [find map filter]; [discriminate|]. destruct (keqb (p_name q) n) eqn:K.
  - intros X M. injection X as ->. cbn [set_miss p_miss negb]. rewrite M. cbn [negb length]. pose proof (free_upd n t) as F. unfold free, upd in F. lia.
  - intros X M. specialize (IH X M). destruct (negb (p_miss q)); cbn [length]; lia.
Qed.
Lemma free_len t : (free t <= length t)%nat.
Proof. unfold free. induction t as [|p t IH]; cbn; [lia|]. destruct (negb (p_miss p)); cbn; lia. Qed.

(** the tree while something is started: [reach t0 n] may be started, subsystems
    with the mark are not *)
Definition grow (t0 : list plug) (n : name) (p q : plug) : Prop :=
  (p_on p = true -> p_on q = true) /\ (p_on q = true -> p_on p = true \/ reach t0 n (p_name p)) /\ (key (p_name p) <> key n -> p_miss p = true -> p_on q = p_on p).
Definition keepm (n : name) (p q : plug) : Prop := p_miss q = if keqb (p_name p) n then false else p_miss p.
Definition quiet_log (l : list event) : Prop := forall k, ~ In (Stopped k) l.

Definition post (U t0 : list plug) (n : name) (s : st) (r : Z) (s' : st) : Prop :=
  Inv U s' /\ (r = 0 \/ r = -1 \/ r = 1) /\ rel (grow t0 n) (s_tree s) (s_tree s') /\
  (r = 0 -> on (s_tree s') n /\ rel (keepm n) (s_tree s) (s_tree s')) /\
  (r <> 0 -> ~ on (s_tree s') n) /\
  exists l, s_log s' = l ++ s_log s /\ quiet_log l.

Lemma inv_tree U s t' (R : plug -> plug -> Prop) : Inv U s -> rel R (s_tree s) t' -> (forall p q, In p (s_tree s) -> R p q -> p_on q = p_on p /\ (p_on q = true -> p_miss q = false)) -> Inv U (with_tree s t').
Proof.
  intros H F HR. destruct H as [A B C D E]. constructor; cbn [with_tree s_tree s_log].
  - rewrite (rel_keys _ _ _ F). exact A.
  - intros q Q. destruct (rel_in' _ _ _ _ F Q) as (p & P1 & (P2 & P3 & _) & _). destruct (B p P1) as (u & U1 & U2 & U3). exists u. split; [exact U1|]. split; congruence.
  - exact C.
  - intros k ds. rewrite D. split.
    + intros (p & P1 & P2 & P3 & P4). destruct (rel_in _ _ _ _ F P1) as (q & Q1 & (Q2 & Q3 & _) & Q4). exists q. destruct (HR p q P1 Q4) as [H1 _]. split; [exact Q1|]. split; [congruence|]. split; congruence.
    + intros (q & Q1 & P2 & P3 & P4). destruct (rel_in' _ _ _ _ F Q1) as (p & P1 & (Q2 & Q3 & _) & Q4). exists p. destruct (HR p q P1 Q4) as [H1 _]. split; [exact P1|]. split; [congruence|]. split; congruence.
  - intros q Q O. destruct (rel_in' _ _ _ _ F Q) as (p & P1 & _ & P4). apply (HR p q P1 P4), O.
Qed.

Section I.
Context (init_ok : list event -> name -> bool) (U : list plug).
Definition call_ok (init : name -> st -> option (Z * st)) (f : nat) : Prop :=
  forall n s p, Inv U s -> get n (s_tree s) = Some p -> (free (upd n (set_miss true) (s_tree s)) < f)%nat ->
  exists r s', init n s = Some (r, s') /\ post U (s_tree s) n s r s'.

(** the loop; [n0] has the mark *)
Lemma init_deps_ok init f t0 n0 p0 : call_ok init f -> In p0 t0 -> key (p_name p0) = key n0 -> forall ds s, (forall d, In d ds -> In d (p_deps p0)) -> Inv U s -> (free (s_tree s) < S f)%nat ->
  rel (fun _ _ => True) t0 (s_tree s) ->
  exists r s', init_deps init ds s = Some (r, s') /\ Inv U s' /\ (r = 0 \/ r = -1 \/ r = 1) /\
   rel (fun p q => (p_on p = true -> p_on q = true) /\ (p_on q = true -> p_on p = true \/ reach t0 n0 (p_name p)) /\ (p_miss p = true -> p_on q = p_on p)) (s_tree s) (s_tree s') /\
   (r = 0 -> (forall d, In d ds -> on (s_tree s') d) /\ rel (fun p q => p_miss q = p_miss p) (s_tree s) (s_tree s')) /\
   exists l, s_log s' = l ++ s_log s /\ quiet_log l.
Proof.
  intros CO P0 K0. induction ds as [|d ds IH]; intros s SUB H FR F0; cbn [init_deps].
  { exists 0, s. split; [reflexivity|]. split; [exact H|]. split; [auto|]. split; [apply rel_refl; auto|]. split; [|exists []; split; [reflexivity|intros k []]].
    intros _. split; [intros d []|]. apply rel_refl. reflexivity. }
  assert (forall r s', r <> 0 -> Inv U s' -> (r = 0 \/ r = -1 \/ r = 1) -> rel (grow (s_tree s) d) (s_tree s) (s_tree s') -> (exists q, get d (s_tree s) = Some q /\ p_miss q = false) -> (exists l, s_log s' = l ++ s_log s /\ quiet_log l) ->
    Inv U s' /\ (r = 0 \/ r = -1 \/ r = 1) /\
    rel (fun p q => (p_on p = true -> p_on q = true) /\ (p_on q = true -> p_on p = true \/ reach t0 n0 (p_name p)) /\ (p_miss p = true -> p_on q = p_on p)) (s_tree s) (s_tree s') /\
    (r = 0 -> (forall d', In d' (d :: ds) -> on (s_tree s') d') /\ rel (fun p q => p_miss q = p_miss p) (s_tree s) (s_tree s')) /\
    exists l, s_log s' = l ++ s_log s /\ quiet_log l) as BAD.
  { intros r s' NR H' R3 G (q & GQ & MQ) L. split; [exact H'|]. split; [exact R3|]. split; [|split; [intros; congruence|exact L]].
    eapply rel_imp; [|exact G]. intros p p' PI ST (A & B & C). split; [exact A|]. split.
    - intros O. destruct (B O) as [X|X]; [auto|]. right. apply (reach_step t0 n0 p0 d); auto; [apply SUB; left; reflexivity|]. eapply rel_reach; [exact F0|exact X].
    - intros M. apply C; [|exact M]. intros E. assert (get d (s_tree s) = Some p) by (apply get_in; [apply (i_nodup _ _ H)|exact PI|exact E]). congruence. }
  destruct (get d (s_tree s)) as [q|] eqn:GQ.
  2:{ exists (-1), s. split; [reflexivity|]. split; [exact H|]. split; [auto|]. split; [apply rel_refl; auto|]. split; [lia|]. exists []. split; [reflexivity|intros k []]. }
  destruct (p_miss q) eqn:MQ.
  { exists 1, s. split; [reflexivity|]. split; [exact H|]. split; [auto|]. split; [apply rel_refl; auto|]. split; [lia|]. exists []. split; [reflexivity|intros k []]. }
  pose proof (free_upd_lt d (s_tree s) q GQ MQ) as FL. destruct (CO d s q H GQ) as (r & s1 & E1 & H1 & R3 & G1 & Z1 & _ & L1); [lia|]. rewrite E1.
  destruct (Z.eqb_spec r (-1)) as [->|N1]; [exists (-1), s1; split; [reflexivity|]; apply BAD; auto; [lia|eauto]|].
  destruct (Z.eqb_spec r 1) as [->|N2]; [exists 1, s1; split; [reflexivity|]; apply BAD; auto; [lia|eauto]|].
  assert (r = 0) as -> by lia. destruct (Z1 eq_refl) as [O1 K1].
  assert (rel (fun p q => p_miss q = p_miss p) (s_tree s) (s_tree s1)) as SM.
  { eapply rel_imp; [|exact K1]. intros p p' PI ST KP. unfold keepm in KP. destruct (keqb_spec (p_name p) d) as [E|E]; [|exact KP]. assert (get d (s_tree s) = Some p) by (apply get_in; [apply (i_nodup _ _ H)|exact PI|exact E]). congruence. }
  destruct (IH s1) as (r' & s2 & E2 & H2 & R3' & G2 & Z2 & L2).
  { intros d' D'. apply SUB. right. exact D'. } { exact H1. } { rewrite (free_same _ _ SM). exact FR. } { eapply rel_trans; [|exact F0|exact G1]. auto. }
  exists r', s2. split; [exact E2|]. split; [exact H2|]. split; [exact R3'|]. split; [|split].
  - assert (rel (fun p q => grow (s_tree s) d p q /\ p_miss q = p_miss p) (s_tree s) (s_tree s1)) as G1'.
    { apply rel_and; assumption. }
    eapply rel_trans; [|exact G1'|exact G2]. intros p p1 p2 PI ST1 ST2 [(A & B & C) M] (A2 & B2 & C2). split; [auto|]. split.
    + intros O. destruct (B2 O) as [X|X].
      * destruct (B X) as [Y|Y]; [auto|]. right. apply (reach_step t0 n0 p0 d); auto; [apply SUB; left; reflexivity|]. eapply rel_reach; [exact F0|exact Y].
      * right. destruct ST1 as [-> _]. exact X.
    + intros MP. rewrite C2 by congruence. apply C; [|exact MP]. intros E. assert (get d (s_tree s) = Some p) by (apply get_in; [apply (i_nodup _ _ H)|exact PI|exact E]). congruence.
  - intros Z. destruct (Z2 Z) as [OD SM2]. split.
    + intros d' [<-|D']; [|apply OD, D']. destruct O1 as (p & P1 & P2). destruct (rel_get _ _ _ _ _ G2 P1) as (p' & Q1 & _ & Q2 & _). exists p'. split; [exact Q1|]. apply Q2, P2.
    + eapply rel_trans; [|exact SM|exact SM2]. intros; cbv beta in *; congruence.
  - destruct L2 as (l2 & -> & Q2). destruct L1 as (l1 & -> & Q1). exists (l2 ++ l1). split; [apply app_assoc|]. intros k X. apply in_app_or in X as [X|X]; [exact (Q2 k X)|exact (Q1 k X)].
Qed.

Lemma set_miss_stat b p : stat p (set_miss b p). Proof. repeat split. Qed.
Lemma set_on_stat b p : stat p (set_on b p). Proof. repeat split. Qed.
Lemma init_plugin_ok f : call_ok (init_plugin init_ok f) f.
Proof.
  induction f as [|f IH]; intros n s p H GP FR; [lia|]. cbn [init_plugin]. rewrite GP. pose proof (get_some _ _ _ GP) as [PI PK].
  assert (forall p', In p' (s_tree s) -> key (p_name p') = key n -> p' = p) as UQ.
  { intros p' I1 K1. assert (get n (s_tree s) = Some p') by (apply get_in; [apply (i_nodup _ _ H)|exact I1|exact K1]). congruence. }
  destruct (p_on p) eqn:ON.
  { exists 0, s. split; [reflexivity|]. split; [exact H|]. split; [auto|]. split; [apply rel_refl; intros q _; split; [auto|]; split; auto|]. split; [|split; [congruence|exists []; split; [reflexivity|intros k []]]].
    intros _. split; [exists p; auto|]. apply rel_refl. intros q Q. unfold keepm. destruct (keqb_spec (p_name q) n) as [E|]; [|reflexivity]. rewrite (UQ q Q E). apply (i_miss _ _ H); assumption. }
  set (t1 := upd n (set_miss true) (s_tree s)) in *.
  assert (rel (fun p q => p_on q = p_on p /\ p_miss q = if keqb (p_name p) n then true else p_miss p) (s_tree s) t1) as F1.
  { apply rel_upd; [apply set_miss_stat|]. intros q Q. destruct (keqb (p_name q) n); split; reflexivity. }
  assert (Inv U (with_tree s t1)) as H1.
  { eapply inv_tree; [exact H|exact F1|]. cbv beta. intros q q' Q [A B]. split; [exact A|]. rewrite A, B. intros O. destruct (keqb_spec (p_name q) n) as [E|]; [rewrite (UQ q Q E) in O; congruence|]. apply (i_miss _ _ H); assumption. }
  destruct (init_deps_ok (init_plugin init_ok f) f (s_tree s) n p IH PI PK (p_deps p) (with_tree s t1)) as (r & s1 & E1 & H2 & R3 & G1 & Z1 & L1); [auto|exact H1|cbn [with_tree s_tree]; lia|eapply rel_imp; [|exact F1]; auto|].
  fold t1. rewrite E1. cbn [with_tree s_tree s_log] in G1, L1, Z1.
  (* from s to s1 *)
  assert (rel (fun a b => (p_on a = true -> p_on b = true) /\ (p_on b = true -> p_on a = true \/ reach (s_tree s) n (p_name a)) /\ (p_miss a = true -> p_on b = p_on a) /\ (key (p_name a) = key n -> p_on b = false)) (s_tree s) (s_tree s1)) as G.
  { eapply rel_trans; [|exact F1|exact G1]. cbv beta. intros a b c AI S1 S2 [A1 A2] (B1 & B2 & B3). rewrite A1 in *. split; [exact B1|]. destruct S1 as [S1 _]. rewrite <- S1 in B2. split; [exact B2|]. split.
    - intros M. apply B3. rewrite A2, M. now destruct (keqb (p_name a) n).
    - intros K. rewrite B3; [rewrite (UQ a AI K); exact ON|]. rewrite A2. destruct (keqb_spec (p_name a) n); [reflexivity|contradiction]. }
  assert (~ on (s_tree s1) n) as NO.
  { intros (q & Q1 & Q2). destruct (rel_get' _ _ _ _ _ G Q1) as (a & A1 & _ & _ & _ & _ & A2). rewrite A2 in Q2; [discriminate|]. apply get_some in A1. apply A1. }
  assert (rel (grow (s_tree s) n) (s_tree s) (s_tree s1)) as G'.
  { eapply rel_imp; [|exact G]. intros a b _ _ (A & B & C & _). split; [exact A|]. split; [exact B|]. intros _ M. apply C, M. }
  destruct (Z.eqb_spec r 0) as [->|NR]; cbn [negb].
  2:{ exists r, s1. split; [reflexivity|]. split; [exact H2|]. split; [exact R3|]. split; [exact G'|]. split; [congruence|]. split; [auto|exact L1]. }
  destruct (Z1 eq_refl) as [OD SM]. set (t2 := upd n (set_miss false) (s_tree s1)).
  assert (rel (fun a b => p_on b = p_on a /\ p_miss b = if keqb (p_name a) n then false else p_miss a) (s_tree s1) t2) as F2.
  { apply rel_upd; [apply set_miss_stat|]. intros q Q. destruct (keqb (p_name q) n); split; reflexivity. }
  assert (Inv U (with_tree s1 t2)) as H3.
  { eapply inv_tree; [exact H2|exact F2|]. cbv beta. intros q q' Q [A B]. split; [exact A|]. rewrite A, B. intros O. destruct (keqb (p_name q) n); [reflexivity|]. apply (i_miss _ _ H2); assumption. }
  assert (~ on t2 n) as NO2.
  { intros (q & Q1 & Q2). destruct (rel_get' _ _ _ _ _ F2 Q1) as (a & A1 & _ & A2 & _). apply NO. exists a. split; [exact A1|congruence]. }
  assert (rel (keepm n) (s_tree s) t2) as KM.
  { assert (rel (fun a c => p_miss c = if keqb (p_name a) n then true else p_miss a) (s_tree s) (s_tree s1)) as X.
    { eapply rel_trans; [|exact F1|exact SM]. cbv beta. intros a b c _ _ _ [_ A2] B. congruence. }
    eapply rel_trans; [|exact X|exact F2]. cbv beta. unfold keepm. intros a b c _ [<- _] _ A [_ B]. rewrite B, A. now destruct (keqb (p_name a) n). }
  assert (rel (grow (s_tree s) n) (s_tree s) t2) as G2.
  { eapply rel_trans; [|exact G'|exact F2]. cbv beta. unfold grow. intros a b c _ _ _ (A & B & C) [O _]. rewrite O. auto. }
  cbn [with_tree s_log s_tree]. fold t2. destruct L1 as (l1 & LL & Q1). destruct (init_ok (s_log s1) (key n)).
  - set (t3 := upd n (set_on true) t2).
    assert (rel (fun a b => p_on b = (if keqb (p_name a) n then true else p_on a) /\ p_miss b = p_miss a) t2 t3) as F3.
    { apply rel_upd; [apply set_on_stat|]. intros q Q. destruct (keqb (p_name q) n); split; reflexivity. }
    destruct (rel_get _ _ _ _ _ KM GP) as (p2 & P2 & (S2a & S2b & _) & M2). destruct (rel_get _ _ _ _ _ F3 P2) as (p3 & P3 & (S3a & S3b & _) & O3 & M3).
    pose proof (get_some _ _ _ P2) as [P2I P2K]. pose proof (get_some _ _ _ P3) as [P3I P3K]. destruct (keqb_spec (p_name p2) n) as [_|X]; [|contradiction].
    assert (forall q, In q t2 -> key (p_name q) = key n -> q = p2) as UQ2.
    { intros q I1 K1. assert (get n t2 = Some q) by (apply get_in; [apply (i_nodup _ _ H3)|exact I1|exact K1]). congruence. }
    exists 0. eexists. split; [reflexivity|]. split; [|split; [auto|]].
    + constructor; cbn [log with_tree s_tree s_log].
      * rewrite (rel_keys _ _ _ F3). apply (i_nodup _ _ H3).
      * intros q Q. destruct (rel_in' _ _ _ _ F3 Q) as (a & A1 & (A2 & A3 & _) & _). destruct (i_known _ _ H3 a A1) as (u & U1 & U2 & U3). exists u. split; [exact U1|]. split; congruence.
      * cbn [good]. split; [apply (i_good _ _ H2)|]. split.
        -- intros X. apply (active_on U s1 n H2) in X. exact (NO X).
        -- intros d D. apply in_map_iff in D as (d' & <- & D'). apply (active_on U s1 d' H2). apply OD, D'.
      * intros k ds. cbn [active In]. rewrite (i_active _ _ H3). cbn [with_tree s_tree]. split.
        -- intros [E|(a & A1 & A2 & A3 & A4)].
           ++ injection E as <- <-. exists p3. split; [exact P3I|]. split; [exact O3|]. split; [congruence|congruence].
           ++ destruct (rel_in _ _ _ _ F3 A1) as (b & B1 & (B2 & B3 & _) & B4 & _). exists b. split; [exact B1|]. split; [rewrite B4, A2; now destruct (keqb (p_name a) n)|]. split; congruence.
        -- intros (b & B1 & B2 & B3 & B4). destruct (rel_in' _ _ _ _ F3 B1) as (a & A1 & (A2 & A3 & _) & A4 & _). destruct (keqb_spec (p_name a) n) as [E|E].
           ++ left. rewrite (UQ2 a A1 E) in *. congruence.
           ++ right. exists a. split; [exact A1|]. split; [congruence|]. split; congruence.
      * intros q Q O. destruct (rel_in' _ _ _ _ F3 Q) as (a & A1 & _ & A4 & A5). rewrite A5. destruct (keqb_spec (p_name a) n) as [E|E].
        -- rewrite (UQ2 a A1 E). rewrite M2. destruct (keqb_spec (p_name p) n); [reflexivity|contradiction].
        -- apply (i_miss _ _ H3); [exact A1|congruence].
    + cbn [log with_tree s_tree s_log]. split; [|split; [|split; [congruence|]]].
      * eapply rel_trans; [|exact G2|exact F3]. cbv beta. unfold grow. intros a b c _ [<- _] _ (A & B & C) [O _]. destruct (keqb_spec (p_name a) n) as [E|E].
        -- split; [intros; congruence|]. split; [intros _; right; constructor; congruence|]. intros; contradiction.
        -- rewrite O. auto.
      * intros _. split; [exists p3; auto|]. eapply rel_trans; [|exact KM|exact F3]. cbv beta. unfold keepm. intros a b c _ _ _ A [_ B]. congruence.
      * exists (Started (key n) (map key (p_deps p)) :: l1). split; [rewrite LL; reflexivity|]. intros k [X|X]; [discriminate|exact (Q1 k X)].
  - exists (-1). eexists. split; [reflexivity|]. destruct H3 as [A B C D E]. split; [|split; [auto|]].
    + constructor; cbn [log with_tree s_tree s_log] in *; try assumption. cbn [good]. split; [exact C|]. intros X. apply (active_on U s1 n H2) in X. exact (NO X).
    + cbn [log with_tree s_tree s_log]. split; [exact G2|]. split; [lia|]. split; [auto|]. exists (Failed (key n) :: l1). split; [rewrite LL; reflexivity|]. intros k [X|X]; [discriminate|exact (Q1 k X)].
Qed.
End I.

(** ** Everything that can be started is started *)
Section T.
Context (init_ok : list event -> name -> bool) (U : list plug) (R : name -> Prop) (rank : name -> nat).
Definition ready (t : list plug) : Prop := forall p, In p t -> R (key (p_name p)) -> forall d, In d (p_deps p) -> R (key d) /\ (exists q, get d t = Some q) /\ (rank (key d) < rank (key (p_name p)))%nat.
Lemma ready_rel Q t t' : rel Q t t' -> ready t -> ready t'.
Proof.
  intros F H q Q1 RQ d D. destruct (rel_in' _ _ _ _ F Q1) as (p & P1 & (P2 & P3 & _) & _). rewrite <- P2 in *. destruct (H p P1 RQ d) as (A & (x & B) & C); [congruence|].
  split; [exact A|]. split; [|exact C]. destruct (rel_get _ _ _ _ _ F B) as (y & Y & _). eauto.
Qed.
Hypothesis always : forall l n, init_ok l n = true.
Lemma init_plugin_total f : forall n s p r s', Inv U s -> get n (s_tree s) = Some p -> (free (upd n (set_miss true) (s_tree s)) < f)%nat -> R (key n) -> ready (s_tree s) ->
  (forall q, In q (s_tree s) -> R (key (p_name q)) -> p_miss q = true -> key (p_name q) = key n \/ (rank (key n) < rank (key (p_name q)))%nat) ->
  init_plugin init_ok f n s = Some (r, s') -> r = 0.
Proof.
  induction f as [|f IH]; intros n s p r s' H GP FR RN RD MS E; [lia|]. cbn [init_plugin] in E. rewrite GP in E. pose proof (get_some _ _ _ GP) as [PI PK].
  destruct (p_on p) eqn:ON; [congruence|].
  set (t1 := upd n (set_miss true) (s_tree s)) in *.
  assert (rel (fun p q => p_on q = p_on p /\ p_miss q = if keqb (p_name p) n then true else p_miss p) (s_tree s) t1) as F1.
  { apply rel_upd; [apply set_miss_stat|]. intros q Q. destruct (keqb (p_name q) n); split; reflexivity. }
  assert (forall p', In p' (s_tree s) -> key (p_name p') = key n -> p' = p) as UQ.
  { intros p' I1 K1. assert (get n (s_tree s) = Some p') by (apply get_in; [apply (i_nodup _ _ H)|exact I1|exact K1]). congruence. }
  assert (Inv U (with_tree s t1)) as H1.
  { eapply inv_tree; [exact H|exact F1|]. cbv beta. intros q q' Q [A B]. split; [exact A|]. rewrite A, B. intros O. destruct (keqb_spec (p_name q) n) as [E'|]; [rewrite (UQ q Q E') in O; congruence|]. apply (i_miss _ _ H); assumption. }
  assert (forall ds s r s', (forall d, In d ds -> R (key d) /\ (exists q, get d (s_tree s) = Some q) /\ (rank (key d) < rank (key n))%nat) -> Inv U s -> (free (s_tree s) < S f)%nat -> ready (s_tree s) ->
    (forall q, In q (s_tree s) -> R (key (p_name q)) -> p_miss q = true -> (rank (key n) <= rank (key (p_name q)))%nat) ->
    init_deps (init_plugin init_ok f) ds s = Some (r, s') -> r = 0) as LOOP.
  { clear - IH always. induction ds as [|d ds IHd]; intros s r s' DS H FR RD MS E; cbn [init_deps] in E; [congruence|].
    destruct (DS d (or_introl eq_refl)) as (RDd & (q & GQ) & RK). rewrite GQ in E. pose proof (get_some _ _ _ GQ) as [QI QK].
    destruct (p_miss q) eqn:MQ; [specialize (MS q QI ltac:(rewrite QK; exact RDd) MQ); rewrite QK in MS; lia|].
    pose proof (free_upd_lt d (s_tree s) q GQ MQ) as FL. destruct (init_plugin_ok init_ok U f d s q H GQ) as (r1 & s1 & E1 & H1 & R3 & G1 & Z1 & _ & _); [lia|]. rewrite E1 in E.
    assert (r1 = 0) as ->.
    { apply (IH d s q r1 s1); auto; [lia|]. intros x X RX MX. right. specialize (MS x X RX MX). lia. }
    destruct (Z1 eq_refl) as [_ K1]. cbn [Z.eqb] in E.
    assert (rel (fun p q => p_miss q = p_miss p) (s_tree s) (s_tree s1)) as SM.
    { eapply rel_imp; [|exact K1]. intros p p' PI ST KP. unfold keepm in KP. destruct (keqb_spec (p_name p) d) as [EE|EE]; [|exact KP]. assert (get d (s_tree s) = Some p) by (apply get_in; [apply (i_nodup _ _ H)|exact PI|exact EE]). congruence. }
    apply (IHd s1 r s'); auto.
    - intros d' D'. destruct (DS d' (or_intror D')) as (A & (x & B) & C). split; [exact A|]. split; [|exact C]. destruct (rel_get _ _ _ _ _ SM B) as (y & Y & _). eauto.
    - rewrite (free_same _ _ SM). exact FR.
    - eapply ready_rel; eassumption.
    - intros x X RX MX. destruct (rel_in' _ _ _ _ SM X) as (y & Y1 & (Y2 & _) & Y3). rewrite <- Y2 in *. apply MS; [exact Y1|exact RX|congruence]. }
  destruct (init_deps (init_plugin init_ok f) (p_deps p) (with_tree s t1)) as [[r1 s1]|] eqn:ED; [|discriminate].
  assert (r1 = 0) as ->.
  { apply (LOOP (p_deps p) (with_tree s t1) r1 s1); auto; cbn [with_tree s_tree].
    - intros d D. destruct (RD p PI ltac:(rewrite PK; exact RN) d D) as (A & (q & B) & C). split; [exact A|]. split; [|rewrite PK in C; exact C]. destruct (rel_get _ _ _ _ _ F1 B) as (y & Y & _). eauto.
    - eapply ready_rel; eassumption.
    - intros x X RX MX. destruct (rel_in' _ _ _ _ F1 X) as (y & Y1 & (Y2 & _) & _ & Y3). rewrite <- Y2 in *. destruct (keqb_spec (p_name y) n) as [K|K]; [rewrite K; lia|]. destruct (MS y Y1 RX ltac:(congruence)); [contradiction|lia]. }
  cbn [Z.eqb negb] in E. rewrite always in E. congruence.
Qed.
End T.

(** ** Stopping *)
Definition shrink (t0 : list plug) (L0 : list (name * list name)) (n : name) (a b : plug) : Prop :=
  p_miss b = p_miss a /\ (p_on b = true -> p_on a = true) /\ (p_on a = true -> p_on b = true \/ reach t0 (p_name a) n) /\
  ((pos (key n) L0 < pos (key (p_name a)) L0)%nat -> p_on b = p_on a).
Definition stop_log (l : list event) : Prop := forall e, In e l -> exists k, e = Stopped k.
Section C.
Context (U : list plug) (L0 : list (name * list name)).
Hypothesis CU : canon U.
Hypothesis OL : ordered L0.
Hypothesis NL : NoDup (map fst L0).

Lemma shrink_active s s' (R : plug -> plug -> Prop) : Inv U s -> Inv U s' -> rel R (s_tree s) (s_tree s') -> (forall a b, R a b -> p_on b = true -> p_on a = true) -> incl (active (s_log s)) L0 -> incl (active (s_log s')) L0.
Proof.
  intros H H' F HR I1 [k ds] X. apply I1. apply (i_active _ _ H'), proj1 in X || apply (i_active _ _ H') in X. destruct X as (b & B1 & B2 & B3 & B4). destruct (rel_in' _ _ _ _ F B1) as (a & A1 & (A2 & A3 & _) & A4).
  apply (i_active _ _ H). exists a. split; [exact A1|]. split; [eapply HR; eassumption|]. split; congruence.
Qed.

Definition stop_ok (clean : name -> st -> option st) (f : nat) : Prop :=
  forall n s p, Inv U s -> incl (active (s_log s)) L0 -> get n (s_tree s) = Some p -> (0 < f)%nat -> (p_on p = true -> (pos (key n) L0 + 1 < f)%nat) ->
  exists s', clean n s = Some s' /\ Inv U s' /\ rel (shrink (s_tree s) L0 n) (s_tree s) (s_tree s') /\ ~ on (s_tree s') n /\ (p_on p = false -> s' = s) /\ exists l, s_log s' = l ++ s_log s /\ stop_log l.

Lemma clean_all_ok clean f t0 n0 : stop_ok clean f -> (0 < f)%nat -> (pos (key n0) L0 < f)%nat -> forall ms s, Inv U s -> incl (active (s_log s)) L0 -> rel (fun _ _ => True) t0 (s_tree s) ->
  (forall m, In m ms -> exists q d, In q t0 /\ p_name q = m /\ In d (p_deps q) /\ key d = key n0) ->
  exists s', clean_all clean ms s = Some s' /\ Inv U s' /\
   rel (fun a b => p_miss b = p_miss a /\ (p_on b = true -> p_on a = true) /\ (p_on a = true -> p_on b = true \/ reach t0 (p_name a) n0) /\ ((pos (key n0) L0 <= pos (key (p_name a)) L0)%nat -> p_on b = p_on a)) (s_tree s) (s_tree s') /\
   (forall m, In m ms -> ~ on (s_tree s') m) /\ exists l, s_log s' = l ++ s_log s /\ stop_log l.
Proof.
  intros CO F0 FP. induction ms as [|m ms IH]; intros s H IA F T; cbn [clean_all].
  { exists s. split; [reflexivity|]. split; [exact H|]. split; [apply rel_refl; auto 6|]. split; [intros m []|]. exists []. split; [reflexivity|intros e []]. }
  destruct (T m (or_introl eq_refl)) as (q0 & d & Q1 & Q2 & Q3 & Q4). destruct (rel_in _ _ _ _ F Q1) as (q & QI & (S1 & S2 & _) & _).
  assert (get m (s_tree s) = Some q) as GQ by (apply get_in; [apply (i_nodup _ _ H)|exact QI|congruence]).
  assert (p_on q = true -> (pos (key m) L0 < pos (key n0) L0)%nat) as PP.
  { intros O. apply (pos_dep L0 (key m) (map key (p_deps q))); [exact OL|exact NL| |rewrite <- Q4; apply in_map; congruence]. apply IA. apply (i_active _ _ H). exists q. split; [exact QI|]. split; [exact O|]. split; congruence. }
  destruct (CO m s q H IA GQ F0) as (s1 & E1 & H1 & R1 & N1 & SAME & (l1 & L1 & Q5)); [intros O; specialize (PP O); lia|]. rewrite E1.
  assert (rel (fun a b => p_miss b = p_miss a /\ (p_on b = true -> p_on a = true) /\ (p_on a = true -> p_on b = true \/ reach t0 (p_name a) n0) /\ ((pos (key n0) L0 <= pos (key (p_name a)) L0)%nat -> p_on b = p_on a)) (s_tree s) (s_tree s1)) as R1'.
  { destruct (p_on q) eqn:OQ.
    - specialize (PP eq_refl). eapply rel_imp; [|exact R1]. intros a b AI _ (A & B & C & D). split; [exact A|]. split; [exact B|]. split; [|intros; apply D; lia]. intros O. destruct (C O) as [X|X]; [auto|]. right.
      apply (reach_trans t0 (p_name a) m n0); [eapply rel_reach; [exact F|exact X]|]. apply (reach_step t0 m q0 d n0); [exact Q1|congruence|exact Q3|constructor; exact Q4].
    - rewrite (SAME eq_refl). apply rel_refl. auto 6. }
  destruct (IH s1 H1) as (s2 & E2 & H2 & R2 & N2 & (l2 & L2 & Q6)).
  { eapply shrink_active; [exact H|exact H1|exact R1|intros a b (_ & X & _); exact X|exact IA]. }
  { eapply rel_trans; [|exact F|exact R1]. auto. } { intros m' M'. apply T. right. exact M'. }
  exists s2. split; [exact E2|]. split; [exact H2|]. split; [|split].
  - eapply rel_trans; [|exact R1'|exact R2]. cbv beta. intros a b c _ [<- _] _ (A1 & A2 & A3 & A4) (B1 & B2 & B3 & B4). split; [congruence|]. split; [auto|]. split.
    + intros O. destruct (A3 O) as [X|X]; [|auto]. apply B3, X.
    + intros X. rewrite B4, A4 by exact X. reflexivity.
  - intros m' [<-|M']; [|apply N2, M']. intros (x & X1 & X2). destruct (rel_get' _ _ _ _ _ R2 X1) as (y & Y1 & _ & _ & Y2 & _). apply N1. exists y. split; [exact Y1|auto].
  - exists (l2 ++ l1). split; [rewrite L2, L1; apply app_assoc|]. intros e X. apply in_app_or in X as [X|X]; [exact (Q6 e X)|exact (Q5 e X)].
Qed.

Lemma cleanup_ok f : stop_ok (cleanup_plugin f) f.
Proof.
  induction f as [|f IH]; intros n s p H IA GP F0 FP; [lia|]. cbn [cleanup_plugin]. rewrite GP. pose proof (get_some _ _ _ GP) as [PI PK].
  assert (forall p', In p' (s_tree s) -> key (p_name p') = key n -> p' = p) as UQ.
  { intros p' I1 K1. assert (get n (s_tree s) = Some p') by (apply get_in; [apply (i_nodup _ _ H)|exact I1|exact K1]). congruence. }
  destruct (p_on p) eqn:ON; cbn [negb].
  2:{ exists s. split; [reflexivity|]. split; [exact H|]. split; [apply rel_refl; intros a _; unfold shrink; auto|]. split; [intros (q & Q1 & Q2); congruence|]. split; [auto|]. exists []. split; [reflexivity|intros e []]. }
  specialize (FP eq_refl).
  destruct (clean_all_ok (cleanup_plugin f) f (s_tree s) n IH ltac:(lia) ltac:(lia) (rdeps (p_name p) (s_tree s)) s H IA) as (s1 & E1 & H1 & R1 & N1 & (l1 & L1 & Q1)).
  { apply rel_refl. auto. }
  { intros m M. unfold rdeps in M. apply in_flat_map in M as (q & QI & M). apply in_map_iff in M as (d & DE & D). apply filter_In in D as [D1 D2]. exists q, d. split; [exact QI|]. split; [exact DE|]. split; [exact D1|]. destruct (str_eqb_spec d (p_name p)); [congruence|discriminate]. }
  rewrite E1. set (t2 := upd n (set_on false) (s_tree s1)).
  assert (rel (fun a b => p_miss b = p_miss a /\ p_on b = if keqb (p_name a) n then false else p_on a) (s_tree s1) t2) as F2.
  { apply rel_upd; [apply set_on_stat|]. intros q Q. destruct (keqb (p_name q) n); split; reflexivity. }
  (* n is still started *)
  destruct (rel_get _ _ _ _ _ R1 GP) as (p1 & GP1 & (SP1 & SP2 & _) & _ & _ & _ & OP1). rewrite PK in OP1. specialize (OP1 (le_n _)). rewrite ON in OP1.
  assert (is_active (s_log s1) (key n)) as AN by (apply (active_on U s1 n H1); exists p1; auto).
  assert (forall m ds, In (m, ds) (active (s_log s1)) -> ~ In (key n) ds) as NR.
  { intros m ds X ND. apply (i_active _ _ H1) in X as (b & B1 & B2 & -> & ->). apply in_map_iff in ND as (d & DK & D). destruct (rel_in' _ _ _ _ R1 B1) as (a & A1 & (A2 & A3 & _) & _).
    apply (N1 (p_name b)).
    - unfold rdeps. apply in_flat_map. exists a. split; [exact A1|]. apply in_map_iff. exists d. split; [exact A2|]. apply filter_In. split; [congruence|].
      destruct (i_known _ _ H p PI) as (u & U1 & U2 & U3). destruct (i_known _ _ H a A1) as (w & W1 & W2 & W3).
      assert (d = p_name p) as ->; [|destruct (str_eqb_spec (p_name p) (p_name p)); congruence]. rewrite <- U2. apply (CU u w d U1 W1); [congruence|congruence].
    - exists b. split; [apply get_in; [apply (i_nodup _ _ H1)|exact B1|reflexivity]|exact B2]. }
  eexists. split; [reflexivity|]. split; [|split; [|split; [|split; [congruence|]]]]; cbn [log with_tree s_tree s_log]; fold t2.
  - constructor; cbn [log with_tree s_tree s_log].
    + rewrite (rel_keys _ _ _ F2). apply (i_nodup _ _ H1).
    + intros q Q. destruct (rel_in' _ _ _ _ F2 Q) as (a & A1 & (A2 & A3 & _) & _). destruct (i_known _ _ H1 a A1) as (u & U1 & U2 & U3). exists u. split; [exact U1|]. split; congruence.
    + cbn [good]. split; [apply (i_good _ _ H1)|]. split; [exact AN|exact NR].
    + intros k ds. cbn [active]. rewrite filter_In, (i_active _ _ H1). cbn [fst]. split.
      * intros [(a & A1 & A2 & A3 & A4) NK]. destruct (rel_in _ _ _ _ F2 A1) as (b & B1 & (B2 & B3 & _) & _ & B4). exists b. split; [exact B1|]. split; [|split; congruence].
        rewrite B4. destruct (keqb_spec (p_name a) n) as [K|K]; [|exact A2]. rewrite A3, K in NK. destruct (str_eqb_spec (key n) (key n)); [discriminate|congruence].
      * intros (b & B1 & B2 & B3 & B4). destruct (rel_in' _ _ _ _ F2 B1) as (a & A1 & (A2 & A3 & _) & _ & A4). destruct (keqb_spec (p_name a) n) as [K|K]; [congruence|]. split.
        -- exists a. split; [exact A1|]. split; [congruence|]. split; congruence.
        -- rewrite B3, <- A2. destruct (str_eqb_spec (key (p_name a)) (key n)); [contradiction|reflexivity].
    + intros q Q O. destruct (rel_in' _ _ _ _ F2 Q) as (a & A1 & _ & A2 & A3). rewrite A2. apply (i_miss _ _ H1); [exact A1|]. destruct (keqb (p_name a) n); congruence.
  - eapply rel_trans; [|exact R1|exact F2]. cbv beta. unfold shrink. intros a b c _ [<- _] _ (A1 & A2 & A3 & A4) (B1 & B2). split; [congruence|]. destruct (keqb_spec (p_name a) n) as [K|K].
    + split; [intros; congruence|]. split; [intros _; right; constructor; exact K|]. rewrite K. lia.
    + rewrite B2. split; [exact A2|]. split; [exact A3|]. intros X. apply A4. lia.
  - intros (q & Q2 & Q3). destruct (rel_get' _ _ _ _ _ F2 Q2) as (a & A1 & _ & _ & A2). apply get_some in A1 as [_ A1]. destruct (keqb_spec (p_name a) n); [congruence|contradiction].
  - exists (Stopped (key n) :: l1). split; [rewrite L1; reflexivity|]. intros e [<-|X]; [eauto|apply Q1, X].
Qed.
End C.

(** *** Unloading *)
Lemma active_len U s : Inv U s -> (length (active (s_log s)) <= length (s_tree s))%nat.
Proof.
  intros H. rewrite <- (map_length fst (active (s_log s))), <- (map_length (fun p => key (p_name p)) (s_tree s)). apply NoDup_incl_length; [apply active_nodup, (i_good _ _ H)|].
  intros k K. apply in_map_iff in K as ([k' ds] & E & X). cbn in E. subst k'. apply (i_active _ _ H) in X as (p & P1 & _ & P3 & _). subst k. apply (in_map (fun p => key (p_name p))), P1.
Qed.
Definition gone (n : name) (t : list plug) : list plug := filter (fun q => negb (keqb (p_name q) n)) t.
Lemma gone_in n t q : In q (gone n t) <-> (In q t /\ key (p_name q) <> key n).
Proof. unfold gone. rewrite filter_In. destruct (keqb_spec (p_name q) n); cbn; intuition congruence. Qed.
Lemma gone_keys n t : NoDup (keys t) -> NoDup (keys (gone n t)).
Proof.
  unfold keys, gone. induction t as [|p t IH]; cbn [filter map]; intros N; [constructor|]. inversion N as [|? ? A B]; subst. destruct (negb (keqb (p_name p) n)); [|apply IH, B]. cbn [map]. constructor; [|apply IH, B].
  intros X. apply A. apply in_map_iff in X as (q & Q1 & Q2). apply filter_In in Q2 as [Q2 _]. rewrite <- Q1. apply (in_map (fun p => key (p_name p))), Q2.
Qed.
(** what unloading does: the subsystem is gone; exactly those that are it or depend
    on it are stopped *)
Definition unloaded (n : name) (s s' : st) : Prop :=
  (forall q, In q (s_tree s') -> key (p_name q) <> key n) /\
  (forall p, In p (s_tree s) -> key (p_name p) <> key n -> exists q, In q (s_tree s') /\ stat p q /\ p_miss q = p_miss p /\
     (p_on q = true <-> (p_on p = true /\ ~ reach (s_tree s) (p_name p) n))) /\
  map p_name (s_tree s') = map p_name (gone n (s_tree s)) /\
  exists l, s_log s' = l ++ s_log s /\ stop_log l.

Lemma inv_gone U s n : Inv U s -> ~ on (s_tree s) n -> Inv U (with_tree s (gone n (s_tree s))).
Proof.
  intros H NO. destruct H as [A B C D E]. constructor; cbn [with_tree s_tree s_log].
  - apply gone_keys, A.
  - intros p P. apply gone_in in P as [P _]. apply B, P.
  - exact C.
  - intros k ds. rewrite D. split; intros (p & P1 & P2 & P3 & P4); exists p; (split; [|auto]).
    + apply gone_in. split; [exact P1|]. intros K. apply NO. exists p. split; [apply get_in; assumption|exact P2].
    + apply gone_in in P1. apply P1.
  - intros p P. apply gone_in in P as [P _]. apply E, P.
Qed.
(** started ones have started dependencies *)
Lemma on_closed U s p : Inv U s -> In p (s_tree s) -> p_on p = true -> forall d, In d (p_deps p) -> on (s_tree s) d.
Proof.
  intros H PI O d D. apply (active_on U s d H). assert (In (key (p_name p), map key (p_deps p)) (active (s_log s))) as X by (apply (i_active _ _ H); exists p; auto).
  pose proof (active_ordered _ (i_good _ _ H)) as OR. unfold is_active. clear - X OR D. induction (active (s_log s)) as [|[k ds] l IH]; [destruct X|]. cbn [ordered map fst In] in *. destruct OR as [A B]. destruct X as [E|X]; [|right; apply IH; assumption].
  injection E as -> ->. right. apply A. apply in_map, D.
Qed.
Lemma reach_on U s a b : Inv U s -> reach (s_tree s) a b -> on (s_tree s) a -> on (s_tree s) b.
Proof.
  intros H RE. induction RE as [a b E|a p d b PI PK D _ IH]; intros ON.
  - destruct ON as (q & Q1 & Q2). exists q. split; [rewrite <- (get_key a b) by exact E; exact Q1|exact Q2].
  - apply IH. destruct ON as (q & Q1 & Q2). assert (q = p) as -> by (assert (get a (s_tree s) = Some p) by (apply get_in; [apply (i_nodup _ _ H)|exact PI|exact PK]); congruence). apply (on_closed U s p H PI Q2 d D).
Qed.

Lemma unload_ok U s n p final : canon U -> Inv U s -> get n (s_tree s) = Some p ->
  exists r s', unload_plugin (depth s) n final s = Some (r, s') /\ Inv U s' /\
  ((r = -1 /\ s' = s /\ p_can p = false /\ final = false) \/ (r = 0 /\ unloaded n s s' /\ (p_can p = true \/ final = true))).
Proof.
  intros CU H GP. unfold unload_plugin. rewrite GP. destruct (negb (p_can p) && negb final) eqn:PC.
  { exists (-1), s. split; [reflexivity|]. split; [exact H|]. left. destruct (p_can p), final; cbn in PC; try discriminate. auto. }
  assert (p_can p = true \/ final = true) as PC' by (destruct (p_can p), final; cbn in PC; auto; discriminate).
  pose proof (get_some _ _ _ GP) as [PI PK].
  assert (exists s1, (if p_on p then cleanup_plugin (depth s) n s else Some s) = Some s1 /\ Inv U s1 /\ ~ on (s_tree s1) n /\ rel (shrink (s_tree s) (active (s_log s)) n) (s_tree s) (s_tree s1) /\ exists l, s_log s1 = l ++ s_log s /\ stop_log l) as (s1 & E1 & H1 & N1 & R1 & L1).
  { destruct (p_on p) eqn:ON.
    - destruct (cleanup_ok U (active (s_log s)) CU (active_ordered _ (i_good _ _ H)) (active_nodup _ (i_good _ _ H)) (depth s) n s p H (incl_refl _) GP) as (s1 & A & B & C & D & _ & F); [unfold depth; lia| |exists s1; auto].
      intros _. pose proof (active_len U s H). assert (pos (key n) (active (s_log s)) < length (active (s_log s)))%nat by (apply pos_in; apply (active_on U s n H); exists p; auto). unfold depth. lia.
    - exists s. split; [reflexivity|]. split; [exact H|]. split; [intros (q & Q1 & Q2); congruence|]. split; [apply rel_refl; intros a _; unfold shrink; auto|]. exists []. split; [reflexivity|intros e []]. }
  rewrite E1. exists 0. eexists. split; [reflexivity|]. fold (gone n (s_tree s1)). split; [apply inv_gone; assumption|]. right. split; [reflexivity|]. split; [|exact PC'].
  split; [|split; [|split; [|exact L1]]]; cbn [with_tree s_tree].
  - intros q Q. apply gone_in in Q. apply Q.
  - intros a AI AK. destruct (rel_in _ _ _ _ R1 AI) as (b & B1 & B2 & B3 & B4 & B5 & _). exists b. split; [apply gone_in; split; [exact B1|]; destruct B2 as [<- _]; exact AK|]. split; [exact B2|]. split; [exact B3|]. split.
    + intros O. split; [auto|]. intros RE. apply N1. apply (reach_on U s1 (p_name b) n H1).
      * assert (rel (fun _ _ => True) (s_tree s1) (s_tree s)) as RI.
        { clear - R1. induction R1 as [|x y t t' [X1 X2] F IHF]; constructor; [split; [|exact I]; unfold stat in *; intuition congruence|exact IHF]. }
        eapply rel_reach; [exact RI|]. destruct B2 as [<- _]. exact RE.
      * exists b. split; [apply get_in; [apply (i_nodup _ _ H1)|exact B1|reflexivity]|exact O].
    + intros [O NR]. destruct (B5 O) as [X|X]; [exact X|contradiction].
  - clear - R1. unfold gone. induction R1 as [|x y t t' [[X1 _] _] F IHF]; cbn [filter map]; [reflexivity|]. rewrite X1. destruct (negb (keqb (p_name y) n)); cbn [map]; congruence.
Qed.

(** *** The end *)
Lemma finish_ok U : canon U -> forall l s, Inv U s -> NoDup (map key l) -> (forall n, In n l -> exists p, get n (s_tree s) = Some p) ->
  exists s', finish l s = Some s' /\ Inv U s' /\ (forall p, In p (s_tree s') -> ~ In (key (p_name p)) (map key l) /\ exists p0, In p0 (s_tree s) /\ p_name p0 = p_name p) /\ exists e, s_log s' = e ++ s_log s /\ stop_log e.
Proof.
  intros CU. induction l as [|n l IH]; intros s H N G; cbn [finish].
  { exists s. split; [reflexivity|]. split; [exact H|]. split; [intros p P; split; [intros []|eauto]|]. exists []. split; [reflexivity|intros e []]. }
  cbn [map] in N. inversion N as [|? ? N1 N2]; subst. destruct (G n (or_introl eq_refl)) as (p & GP). destruct (unload_ok U s n p true CU H GP) as (r & s1 & -> & H1 & [(_ & _ & _ & X)|(_ & (A & B & C & (e1 & E1 & Q1)) & _)]); [discriminate|].
  destruct (IH s1 H1 N2) as (s2 & E2 & H2 & R2 & (e2 & E3 & Q3)).
  { intros m M. destruct (G m (or_intror M)) as (q & GQ). pose proof (get_some _ _ _ GQ) as [QI QK]. destruct (B q QI) as (q' & B1 & (B2 & _) & _).
    - intros K. apply N1. rewrite <- K, QK. apply in_map, M.
    - exists q'. apply get_in; [apply (i_nodup _ _ H1)|exact B1|congruence]. }
  exists s2. split; [exact E2|]. split; [exact H2|]. split.
  - intros q Q. destruct (R2 q Q) as (X1 & p0 & X2 & X3). split.
    + cbn [map In]. intros [K|K]; [|exact (X1 K)]. apply (A p0 X2). congruence.
    + assert (In (p_name p0) (map p_name (s_tree s1))) as Y by (apply in_map, X2). rewrite C in Y. apply in_map_iff in Y as (z & Z1 & Z2). apply gone_in in Z2 as [Z2 _]. exists z. split; [exact Z2|congruence].
  - exists (e2 ++ e1). split; [rewrite E3, E1; apply app_assoc|]. intros x X. apply in_app_or in X as [X|X]; [exact (Q3 x X)|exact (Q1 x X)].
Qed.

(** ** All operations *)
Definition hooked (os : list op) : list plug := flat_map (fun o => match o with Hook p => [p] | _ => [] end) os.
Lemma inv_hook U s p : In p U -> Inv U s -> Inv U (hook p s).
Proof.
  intros PU H. unfold hook. destruct (get (p_name p) (s_tree s)) as [q|] eqn:G; [exact H|]. pose proof (get_none _ _ G) as GN. destruct H as [A B C D E]. constructor; cbn [with_tree s_tree s_log].
  - unfold keys. rewrite map_app. cbn [map fresh p_name]. revert A. fold (keys (s_tree s)). assert (~ In (key (p_name p)) (keys (s_tree s))) as NK.
    { intros X. apply in_map_iff in X as (q & Q1 & Q2). exact (GN q Q2 Q1). }
    revert NK. generalize (keys (s_tree s)) as l. intros l NK A. induction A as [|y l Y A IH]; cbn; [constructor; [intros []|constructor]|]. cbn in NK. constructor; [|apply IH; tauto]. intros Z. apply in_app_or in Z as [Z|[Z|[]]]; [tauto|]. subst. tauto.
  - intros q Q. apply in_app_or in Q as [Q|[<-|[]]]; [apply B, Q|]. exists p. cbn. auto.
  - exact C.
  - intros k ds. rewrite D. split; intros (q & Q1 & Q2 & Q3); exists q; (split; [|auto]); [apply in_or_app; auto|]. apply in_app_or in Q1 as [Q1|[<-|[]]]; [exact Q1|discriminate].
  - intros q Q O. apply in_app_or in Q as [Q|[<-|[]]]; [apply E; assumption|reflexivity].
Qed.
Lemma names_ok (t : list plug) : NoDup (keys t) -> forall n, In n (map p_name t) -> exists p, get n t = Some p.
Proof. intros N n X. apply in_map_iff in X as (p & P1 & P2). exists p. apply get_in; [exact N|exact P2|congruence]. Qed.
Lemma step_ok io U o s : canon U -> (forall p, o = Hook p -> In p U) -> Inv U s -> exists r s', step io o s = Some (r, s') /\ Inv U s'.
Proof.
  intros CU HU H. destruct o as [p|n|n|n|]; cbn [step].
  - exists 0. eexists. split; [reflexivity|]. apply inv_hook; auto.
  - destruct (get n (s_tree s)) as [p|] eqn:G; [|eauto]. destruct (init_plugin_ok io U (depth s) n s p H G) as (r & s' & E & H' & _).
    + pose proof (free_upd n (s_tree s)). pose proof (free_len (s_tree s)). unfold depth. lia.
    + eauto.
  - destruct (get n (s_tree s)) as [p|] eqn:G; [|eauto]. exists 0. eexists. split; [reflexivity|]. destruct (p_down p); [|exact H].
    destruct H as [A B C D E]. assert (forall q, p_name (if keqb (p_name q) n then set_unl q else q) = p_name q /\ p_deps (if keqb (p_name q) n then set_unl q else q) = p_deps q /\ p_on (if keqb (p_name q) n then set_unl q else q) = p_on q /\ p_miss (if keqb (p_name q) n then set_unl q else q) = p_miss q) as X by (intros q; destruct (keqb (p_name q) n); auto).
    constructor; cbn [with_tree s_tree s_log]; unfold upd.
    + unfold keys. rewrite map_map. erewrite map_ext; [exact A|]. intros q. cbv beta. destruct (X q) as (-> & _). reflexivity.
    + intros q Q. apply in_map_iff in Q as (a & <- & A1). destruct (X a) as (-> & -> & _). apply B, A1.
    + exact C.
    + intros k ds. rewrite D. split.
      * intros (a & A1 & A2 & A3 & A4). eexists. split; [apply in_map, A1|]. destruct (X a) as (-> & -> & -> & _). auto.
      * intros (q & Q & A2 & A3 & A4). apply in_map_iff in Q as (a & <- & A1). destruct (X a) as (X1 & X2 & X3 & _). rewrite X1 in A3. rewrite X2 in A4. rewrite X3 in A2. eauto.
    + intros q Q O. apply in_map_iff in Q as (a & <- & A1). destruct (X a) as (_ & _ & X3 & X4). rewrite X4. rewrite X3 in O. apply E; assumption.
  - destruct (get n (s_tree s)) as [p|] eqn:G; [|eauto]. destruct (p_down p && negb (p_unl p)); [eauto|]. destruct (unload_ok U s n p false CU H G) as (r & s' & E & H' & _). eauto.
  - destruct (finish_ok U CU (map p_name (s_tree s)) s H) as (s' & E & H' & _).
    + rewrite map_map. apply (i_nodup _ _ H).
    + apply names_ok, (i_nodup _ _ H).
    + rewrite E. eauto.
Qed.
Lemma run_ok io U os : canon U -> forall s, (forall p, In p (hooked os) -> In p U) -> Inv U s -> exists s', run io os s = Some s' /\ Inv U s'.
Proof.
  intros CU. induction os as [|o os IH]; intros s HU H; cbn [run]; [eauto|]. destruct (step_ok io U o s CU) as (r & s1 & -> & H1).
  - intros p ->. apply HU. cbn. auto.
  - exact H.
  - apply IH; [|exact H1]. intros p P. apply HU. unfold hooked. cbn [flat_map]. apply in_or_app. auto.
Qed.
Lemma inv_init U : Inv U init.
Proof.
  constructor; cbn; [constructor|intros p []|exact Logic.I| |intros p []]. intros k ds. split; [intros []|intros (p & [] & _)].
Qed.
