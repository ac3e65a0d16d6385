(** Properties of the hysteresis of links (C129, C130). *)
From Verif Require Import Base HystModel.

(** ** What is expected *)
(** a link is usable when it is neither pending nor lost *)
Definition usable (h : hyst) : bool := negb (h_pending h) && negb (h_lost h).
(** the quality after a HELLO that was lost or received: an exponential average with
    factor scaling/1000, rounded up *)
Definition average (c : config) (lost : bool) (q : Z) : Z := q - q * c_scaling c / 1000 + (if lost then 0 else c_scaling c).
Record conf (c : config) : Prop := { f_a : 0 <= c_reject c < c_accept c; f_b : c_accept c <= 1000; f_c : 1 <= c_scaling c <= 1000 }.
Lemma config_ok_conf c : config_ok c = true <-> conf c.
Proof.
  unfold config_ok. rewrite !andb_true_iff, negb_true_iff, !Z.leb_le, Z.leb_gt. split; [intros; constructor; lia|intros [A B C]; lia].
Qed.

Lemma s32_small x : - 2 ^ 31 <= x < 2 ^ 31 -> s32 x = x.
Proof.
  intros H. unfold s32, u32. destruct (Z_lt_le_dec x 0).
  - replace (x mod 4294967296) with (x + 4294967296) by (apply Z.mod_unique with (-1); lia). cbv zeta. destruct (Z.ltb_spec (x + 4294967296) 2147483648); lia.
  - rewrite Z.mod_small by lia. cbv zeta. destruct (Z.ltb_spec x 2147483648); lia.
Qed.
Lemma ceil q s : (q * (1000 - s) + 999) / 1000 = q - q * s / 1000.
Proof.
  pose proof (Z.div_mod (q * s) 1000 ltac:(lia)) as E. pose proof (Z.mod_pos_bound (q * s) 1000 ltac:(lia)) as B.
  symmetry. apply (Z.div_unique (q * (1000 - s) + 999) 1000 _ (999 - (q * s) mod 1000)); lia.
Qed.
Lemma update_quality c l h : conf c -> 0 <= h_quality h <= 1000 -> h_quality (update c l h) = average c l (h_quality h).
Proof.
  intros [A B C] Q. unfold update, average. rewrite (s32_small (1000 - _)) by lia. assert (0 <= h_quality h * (1000 - c_scaling c) <= 1000000) as P by nia.
  rewrite (s32_small (h_quality h * _)), (s32_small (_ + 999)) by lia. rewrite Z.quot_div_nonneg, ceil by lia.
  assert (0 <= h_quality h * c_scaling c / 1000 <= h_quality h) as D by (split; [apply Z.div_pos; nia|apply Z.div_le_upper_bound; nia]).
  rewrite s32_small by lia. destruct l; cbn [h_quality h_pending h_lost]; repeat match goal with |- context [if ?b then _ else _] => destruct b end; cbn [h_quality]; lia.
Qed.
Lemma average_range c l q : conf c -> 0 <= q <= 1000 -> 0 <= average c l q <= 1000 /\ (if l then average c l q <= q else q <= average c l q).
Proof.
  intros [A B C] Q. unfold average. assert (0 <= q * c_scaling c / 1000 <= q) as D by (split; [apply Z.div_pos; nia|apply Z.div_le_upper_bound; nia]).
  assert (q * c_scaling c / 1000 <= c_scaling c) as E by (apply Z.div_le_upper_bound; nia).
  assert (q + c_scaling c - 1000 <= q * c_scaling c / 1000) as F by (apply Z.div_le_lower_bound; nia). destruct l; lia.
Qed.
(** the decision *)
Lemma update_usable c l h : let q := h_quality (update c l h) in
  usable (update c l h) = if usable h then c_reject c <=? q else c_accept c <? q.
Proof.
  cbv zeta. unfold update, usable. cbn [h_pending h_lost]. destruct (h_pending h) eqn:P, (h_lost h) eqn:L; cbn [negb andb]; match goal with |- context [if ?x <? ?y then _ else _] => destruct (Z.ltb_spec x y) end; cbn [h_quality h_pending h_lost negb andb]; rewrite ?P, ?L; cbn [negb andb]; symmetry; (apply Z.ltb_lt || apply Z.ltb_ge || apply Z.leb_le || apply Z.leb_gt); lia.
Qed.
Lemma update_marks c l h : h_pending h && h_lost h = false -> h_pending (update c l h) && h_lost (update c l h) = false /\ (h_pending h = false -> h_pending (update c l h) = false).
Proof.
  unfold update. cbn [h_pending h_lost]. intros N. destruct (h_pending h) eqn:P, (h_lost h) eqn:L; cbn [negb andb] in *; try discriminate; match goal with |- context [if ?x <? ?y then _ else _] => destruct (Z.ltb_spec x y) end; cbn [h_quality h_pending h_lost negb andb]; rewrite ?P, ?L; auto.
Qed.

Record inv (s : config * hyst) : Prop := { v_conf : conf (fst s); v_q : 0 <= h_quality (snd s) <= 1000; v_m : h_pending (snd s) && h_lost (snd s) = false }.
Lemma step_inv e s : inv s -> inv (step e s).
Proof.
  intros [A B C]. destruct s as [c h]; cbn [fst snd] in *. destruct e as [now i v|now|c']; cbn [step].
  - constructor; cbn [fst snd hello h_quality h_pending h_lost]; [exact A| |apply update_marks, C]. rewrite update_quality by assumption. apply average_range; assumption.
  - destruct (h_due h) as [d|]; [|constructor; assumption]. destruct (d <=? now); [|constructor; assumption]. constructor; cbn [fst snd timeout h_quality h_pending h_lost]; [exact A| |apply update_marks, C]. rewrite update_quality by assumption. apply average_range; assumption.
  - destruct (config_ok c') eqn:E; [|constructor; assumption]. apply config_ok_conf in E. constructor; assumption.
Qed.
Lemma run_inv es : forall s, inv s -> inv (run es s).
Proof. unfold run. induction es as [|e es IH]; cbn [fold_left]; intros s H; [exact H|]. apply IH, step_inv, H. Qed.
Lemma inv_added c : conf c -> inv (c, added).
Proof. intros H. constructor; cbn; [exact H|lia|reflexivity]. Qed.

(** ** C129 *)
(** For all histories of HELLOs, losses and changes of the configuration: the quality
    is between 0 and 1000 and no int32 computation overflows (the value is the exact
    average); a HELLO never lowers it and a loss never raises it; a usable link stays
    usable exactly if the quality is at least [reject], another one becomes usable
    exactly if it is above [accept]; a link is never pending and lost at once, and
    is pending only before it was usable. *)
Theorem C129_quality es c0 : config_ok c0 = true -> let '(c, h) := run es (c0, added) in
  config_ok c = true /\ 0 <= h_quality h <= 1000 /\ (h_pending h = true -> h_lost h = false) /\
  forall l, h_quality (update c l h) = average c l (h_quality h) /\
    (if l then h_quality (update c l h) <= h_quality h else h_quality h <= h_quality (update c l h)) /\
    usable (update c l h) = (if usable h then c_reject c <=? h_quality (update c l h) else c_accept c <? h_quality (update c l h)) /\
    (h_pending h = false -> h_pending (update c l h) = false).
Proof.
  intros C. apply config_ok_conf in C. pose proof (run_inv es _ (inv_added c0 C)) as [A B M]. destruct (run es (c0, added)) as [c h]. cbn [fst snd] in *. split; [apply config_ok_conf, A|]. split; [exact B|]. split; [intros P; rewrite P in M; exact M|].
  intros l. rewrite (update_quality c l h A B). split; [reflexivity|]. split; [apply average_range; assumption|]. split; [|apply update_marks, M]. pose proof (update_usable c l h) as U. cbv zeta in U. rewrite (update_quality c l h A B) in U. exact U.
Qed.
(** With a fixed configuration a usable link becomes lost only by a loss, and
    another one becomes usable only by a HELLO. *)
Definition consistent (c : config) (h : hyst) : Prop := if usable h then c_reject c <= h_quality h else h_quality h <= c_accept c.
Theorem C129_hysteresis es c : config_ok c = true -> (forall e c', In e es -> e <> Config c') -> exists h, run es (c, added) = (c, h) /\ consistent c h /\
  (usable h = true -> usable (update c false h) = true) /\ (usable h = false -> usable (update c true h) = false).
Proof.
  intros C NC. assert (forall es s, inv s -> consistent (fst s) (snd s) -> (forall e c', In e es -> e <> Config c') -> exists h, run es s = (fst s, h) /\ consistent (fst s) h /\ inv (fst s, h)) as X.
  { clear. induction es as [|e es IH]; intros s H K NC; [exists (snd s); cbn; destruct s; auto|]. unfold run. cbn [fold_left]. fold (run es (step e s)).
    assert (fst (step e s) = fst s /\ consistent (fst s) (snd (step e s))) as [E1 E2].
    { destruct s as [c h], H as [A B M]; cbn [fst snd] in *.
      assert (forall l, consistent c (update c l h)) as U.
      { intros l. unfold consistent. rewrite update_usable. destruct (usable h); [destruct (Z.leb_spec (c_reject c) (h_quality (update c l h)))|destruct (Z.ltb_spec (c_accept c) (h_quality (update c l h)))]; try lia; destruct A; lia. }
      destruct e as [now i v|now|c']; cbn [step].
      - split; [reflexivity|]. exact (U false).
      - destruct (h_due h) as [d|]; [|split; [reflexivity|exact K]]. destruct (d <=? now); [|split; [reflexivity|exact K]]. split; [reflexivity|]. exact (U true).
      - elim (NC (Config c') c'); [left; reflexivity|reflexivity]. }
    rewrite <- E1. apply IH; [apply step_inv, H|rewrite E1; exact E2|]. intros e' c' I1. apply NC. right. exact I1. }
  apply config_ok_conf in C. destruct (X es (c, added) (inv_added c C)) as (h & E & K & H); [unfold consistent; cbn; destruct C; lia|exact NC|]. cbn [fst] in *. exists h. split; [exact E|]. split; [exact K|].
  destruct H as [A B M]. cbn [fst snd] in *. unfold consistent in K. split; intros U; rewrite update_usable, U, update_quality by assumption; rewrite U in K; pose proof (average_range c false (h_quality h) A B) as R1; pose proof (average_range c true (h_quality h) A B) as R2; cbv beta iota in R1, R2.
  - apply Z.leb_le. lia. - apply Z.ltb_ge. lia.
Qed.

(** Enough HELLOs make a link usable if [accept] is below 1000, from every state. *)
Fixpoint times (n : nat) (c : config) (l : bool) (h : hyst) : hyst := match n with O => h | S n' => times n' c l (update c l h) end.
Lemma average_up c q : conf c -> 0 <= q < 1000 -> q < average c false q.
Proof. intros [A B C] Q. unfold average. assert (q * c_scaling c / 1000 < c_scaling c) by (apply Z.div_lt_upper_bound; nia). lia. Qed.
Lemma average_down c q : conf c -> 1000 <= q * c_scaling c -> average c true q < q.
Proof. intros [A B C] Q. unfold average. assert (1 <= q * c_scaling c / 1000) by (apply Z.div_le_lower_bound; lia). lia. Qed.
Theorem C129_accepted_partial c h n : config_ok c = true -> 0 <= h_quality h <= 1000 -> c_accept c < 1000 -> 1000 <= Z.of_nat n -> usable (times n c false h) = true.
Proof.
  intros C Q A N. apply config_ok_conf in C.
  assert (forall n h, 0 <= h_quality h <= 1000 -> (n <> 0)%nat -> (usable h = true -> c_reject c <= h_quality h) -> 1000 <= Z.of_nat n + h_quality h -> usable (times n c false h) = true) as X.
  { clear h n Q N. induction n as [|n IH]; intros h Q NZ U N; [congruence|]. cbn [times]. pose proof (average_range c false (h_quality h) C Q) as [R1 R2]. cbv beta iota in R2.
    pose proof (update_usable c false h) as UU. cbv zeta in UU. rewrite (update_quality c false h C Q) in UU.
    assert (h_quality (update c false h) = average c false (h_quality h)) as E by (apply update_quality; assumption).
    destruct n as [|n].
    - cbn [times]. rewrite UU. assert (average c false (h_quality h) = 1000) as -> by (destruct (Z.eq_dec (h_quality h) 1000); [lia|pose proof (average_up c (h_quality h) C ltac:(lia)); lia]). destruct C. destruct (usable h); [apply Z.leb_le; lia|apply Z.ltb_lt; lia].
    - apply IH; [lia|discriminate| |].
      + intros V. rewrite E. rewrite UU in V. destruct (usable h); [apply Z.leb_le in V; exact V|apply Z.ltb_lt in V; destruct C; lia].
      + rewrite E. destruct (Z.eq_dec (h_quality h) 1000); [lia|pose proof (average_up c (h_quality h) C ltac:(lia)); lia]. }
  destruct n as [|n]; [lia|].
  (* the first one also settles links that are kept above the current limits *)
  cbn [times]. pose proof (average_range c false (h_quality h) C Q) as [R1 R2]. cbv beta iota in R2. pose proof (update_usable c false h) as UU. cbv zeta in UU.
  assert (h_quality (update c false h) = average c false (h_quality h)) as E by (apply update_quality; assumption). rewrite E in UU.
  assert (1 <= average c false (h_quality h)) as P1 by (destruct (Z.eq_dec (h_quality h) 1000); [lia|pose proof (average_up c (h_quality h) C ltac:(lia)); lia]).
  apply X; [lia|lia| |lia]. intros V. rewrite E. rewrite UU in V. destruct (usable h); [apply Z.leb_le in V; exact V|apply Z.ltb_lt in V; destruct C; lia].
Qed.
(** Enough losses make it lost if [reject] times [scaling] is at least 1/1000. *)
Theorem C129_rejected_partial c h n : config_ok c = true -> 0 <= h_quality h <= 1000 -> 1000 <= c_reject c * c_scaling c -> 1001 <= Z.of_nat n -> usable (times n c true h) = false.
Proof.
  intros C Q A N. apply config_ok_conf in C.
  assert (0 < c_reject c) as RP by (destruct C; nia).
  assert (forall n h, 0 <= h_quality h <= 1000 -> (n <> 0)%nat -> (h_quality h < Z.of_nat n + c_reject c) -> (usable h = false -> h_quality h <= c_accept c) -> usable (times n c true h) = false) as X.
  { clear h n Q N. induction n as [|n IH]; intros h Q NZ N U; [congruence|]. cbn [times]. pose proof (average_range c true (h_quality h) C Q) as [R1 R2]. cbv beta iota in R2.
    pose proof (update_usable c true h) as UU. cbv zeta in UU. rewrite (update_quality c true h C Q) in UU.
    assert (h_quality (update c true h) = average c true (h_quality h)) as E by (apply update_quality; assumption).
    assert (c_reject c <= h_quality h -> average c true (h_quality h) < h_quality h) as DN by (intros ?; apply average_down; [exact C|destruct C; nia]).
    destruct n as [|n].
    - cbn [times]. rewrite UU. destruct (usable h) eqn:UH; [apply Z.leb_gt|apply Z.ltb_ge; specialize (U eq_refl); lia]. destruct (Z_lt_le_dec (h_quality h) (c_reject c)); lia.
    - apply IH; [lia|discriminate| |].
      + rewrite E. destruct (Z_lt_le_dec (h_quality h) (c_reject c)); lia.
      + intros V. rewrite E. rewrite UU in V. destruct (usable h); [apply Z.leb_gt in V; destruct C; lia|apply Z.ltb_ge in V; lia]. }
  destruct n as [|n]; [lia|]. cbn [times]. pose proof (average_range c true (h_quality h) C Q) as [R1 R2]. cbv beta iota in R2. pose proof (update_usable c true h) as UU. cbv zeta in UU.
  assert (h_quality (update c true h) = average c true (h_quality h)) as E by (apply update_quality; assumption). rewrite E in UU.
  apply X; [lia|lia|lia|]. intros V. rewrite E. rewrite UU in V. destruct (usable h); [apply Z.leb_gt in V; destruct C; lia|apply Z.ltb_ge in V; lia].
Qed.
Definition default : config := {| c_accept := 700; c_reject := 300; c_scaling := 250 |}.
Example C129_ex : config_ok default = true /\ 1000 <= c_reject default * c_scaling default /\
  map (fun n => usable (times n default false added)) [4; 5]%nat = [false; true] /\
  map (fun n => usable (times n default true (times 5 default false added))) [3; 4]%nat = [true; false].
Proof. repeat split; vm_compute; congruence. Qed.
(** the times are those of the operations *)
Lemma times_hellos n c h : exists h', run (repeat (Hello 0 1000 1000) n) (c, h) = (c, h') /\ h_quality h' = h_quality (times n c false h) /\ usable h' = usable (times n c false h).
Proof.
  assert (forall n h g, h_quality g = h_quality h -> h_pending g = h_pending h -> h_lost g = h_lost h -> exists h', run (repeat (Hello 0 1000 1000) n) (c, g) = (c, h') /\ h_quality h' = h_quality (times n c false h) /\ usable h' = usable (times n c false h)) as X; [|apply X; reflexivity].
  clear. induction n as [|n IH]; intros h g A B C; [exists g; cbn; unfold usable; rewrite B, C; auto|]. unfold run. cbn [repeat fold_left step times]. apply IH; unfold hello, update; cbn [h_quality h_pending h_lost]; rewrite ?A, ?B, ?C; repeat match goal with |- context [if ?b then _ else _] => destruct b end; cbn [h_quality h_pending h_lost]; congruence.
Qed.
(** Refuted: with [accept] = 1 (allowed) no number of HELLOs makes a link usable. *)
Theorem C129_never_accepted_refuted : exists c, config_ok c = true /\ forall n, usable (times n c false added) = false.
Proof.
  exists {| c_accept := 1000; c_reject := 500; c_scaling := 250 |}. split; [reflexivity|]. set (c := {| c_accept := 1000; c_reject := 500; c_scaling := 250 |}). assert (conf c) as C by (apply config_ok_conf; reflexivity).
  assert (forall n h, 0 <= h_quality h <= 1000 -> usable h = false -> usable (times n c false h) = false) as X; [|intros n; apply X; cbn; [lia|reflexivity]].
  induction n as [|n IH]; intros h Q U; [exact U|]. cbn [times]. pose proof (average_range c false (h_quality h) C Q) as [R _]. rewrite <- (update_quality c false h C Q) in R. apply IH; [exact R|]. rewrite update_usable, U. apply Z.ltb_ge. cbn [c_accept c]. lia.
Qed.
(** Refuted: the quality is rounded up, so it sticks as soon as quality times scaling
    is below 1/1000: with accept 0.5, reject 0.4 and scaling 0.001 (all allowed) a
    link that was accepted is never rejected, however many HELLOs are lost.  (With the
    default scaling of 0.25 the quality never falls below 0.003, so a [reject] of up to
    0.003 is never reached.) *)
Theorem C129_never_rejected_refuted : exists c n h, config_ok c = true /\ 0 < c_reject c /\ h = times n c false added /\ usable h = true /\ forall k, times k c true h = h.
Proof.
  exists {| c_accept := 500; c_reject := 400; c_scaling := 1 |}, 501%nat. set (c := {| c_accept := 500; c_reject := 400; c_scaling := 1 |}). exists {| h_quality := 501; h_pending := false; h_lost := false; h_itime := 0; h_due := None |}. split; [reflexivity|]. split; [vm_compute; reflexivity|]. split; [vm_compute; reflexivity|]. split; [reflexivity|].
  induction k as [|k IH]; [reflexivity|]. cbn [times]. assert (update c true {| h_quality := 501; h_pending := false; h_lost := false; h_itime := 0; h_due := None |} = {| h_quality := 501; h_pending := false; h_lost := false; h_itime := 0; h_due := None |}) as -> by reflexivity. exact IH.
Qed.

(** ** C130: when HELLOs are lost *)
(** After a HELLO at time [t] with interval [i] (its validity time if it has none) and
    until the next one, the number of losses that are counted when the clock shows
    [now] is at most the number of the times t + i*3/2, t + i*5/2, ... that passed, and
    exactly this number if the timer fires in time. *)
Definition timers (ts : list Z) : list event := map Timer ts.
Fixpoint losses (ts : list Z) (s : config * hyst) : Z :=
  match ts with
  | [] => 0
  | t :: ts' => (match h_due (snd s) with Some d => if d <=? t then 1 else 0 | None => 0 end) + losses ts' (step (Timer t) s)
  end.
Lemma update_timer c l h : h_itime (update c l h) = h_itime h /\ h_due (update c l h) = h_due h.
Proof. unfold update. repeat match goal with |- context [if ?b then _ else _] => destruct b end; auto. Qed.
(** the quality after them is that of so many losses *)
Lemma losses_times ts : forall c h, exists k, Z.of_nat k = losses ts (c, h) /\ exists h', run (timers ts) (c, h) = (c, h') /\ h_quality h' = h_quality (times k c true h) /\ usable h' = usable (times k c true h).
Proof.
  assert (forall ts c h g, h_quality g = h_quality h -> h_pending g = h_pending h -> h_lost g = h_lost h -> exists k, Z.of_nat k = losses ts (c, g) /\ exists h', run (timers ts) (c, g) = (c, h') /\ h_quality h' = h_quality (times k c true h) /\ usable h' = usable (times k c true h)) as X; [|intros c h; apply X; reflexivity].
  clear. induction ts as [|t ts IH]; intros c h g A B C; [exists 0%nat; split; [reflexivity|exists g; cbn; unfold usable; rewrite B, C; auto]|].
  unfold run. cbn [timers map fold_left losses step snd]. destruct (h_due g) as [d|]; [destruct (d <=? t)|].
  - destruct (IH c (update c true h) (timeout c t g)) as (k & K & R); [..|exists (S k); split; [lia|exact R]]; unfold timeout, update; cbn [h_quality h_pending h_lost]; rewrite ?A, ?B, ?C; repeat match goal with |- context [if ?b then _ else _] => destruct b end; cbn [h_quality h_pending h_lost]; congruence.
  - destruct (IH c h g A B C) as (k & K & R). exists k. split; [lia|exact R].
  - destruct (IH c h g A B C) as (k & K & R). exists k. split; [lia|exact R].
Qed.
Lemma losses_bound ts : forall c h i d now, h_due h = Some d -> h_itime h = i -> 0 < i -> (forall t, In t ts -> t <= now) -> losses ts (c, h) <= Z.max 0 ((now - d) / i + 1).
Proof.
  induction ts as [|t ts IH]; intros c h i d now D I1 P L; cbn [losses snd step]; [lia|]. rewrite D. destruct (Z.leb_spec d t) as [X|X].
  - assert (h_due (timeout c t h) = Some (t + i)) as D' by (unfold timeout; cbn [h_due]; unfold timer_set; destruct (update_timer c true h) as [-> _]; rewrite I1; destruct (Z.eqb_spec i 0); [lia|reflexivity]).
    assert (h_itime (timeout c t h) = i) as I' by (unfold timeout; cbn [h_itime]; destruct (update_timer c true h) as [-> _]; exact I1).
    pose proof (IH c (timeout c t h) i (t + i) now D' I' P ltac:(intros; apply L; right; assumption)) as Y. pose proof (L t (or_introl eq_refl)) as Z1.
    assert ((now - (t + i)) / i + 1 <= (now - d) / i) as W. { rewrite <- (Z.div_add (now - (t + i)) 1 i) by lia. apply Z.div_le_mono; lia. }
    assert (0 <= (now - d) / i) as V by (apply Z.div_pos; lia). lia.
  - pose proof (IH c h i d now D I1 P ltac:(intros; apply L; right; assumption)). lia.
Qed.
Theorem C130_losses_bounded c h t itime vtime ts now : 0 < (if itime =? 0 then vtime else itime) < 2 ^ 32 -> (forall x, In x ts -> x <= now) ->
  let i := if itime =? 0 then vtime else itime in
  losses ts (step (Hello t itime vtime) (c, h)) <= Z.max 0 ((now - (t + i * 3 / 2)) / i + 1).
Proof.
  intros P L i. fold i in P. cbn [step]. apply losses_bound; [|reflexivity|lia|exact L].
  unfold hello. cbn [h_due]. fold i. unfold timer_set, u64. rewrite Z.mod_small by lia. destruct (Z.eqb_spec (i * 3 / 2) 0) as [Y|_]; [|reflexivity]. pose proof (Z.div_le_lower_bound (i * 3) 2 1). lia.
Qed.
Corollary C130_no_loss c h t itime vtime ts : 0 < (if itime =? 0 then vtime else itime) < 2 ^ 32 ->
  (forall x, In x ts -> x < t + (if itime =? 0 then vtime else itime) * 3 / 2) -> losses ts (step (Hello t itime vtime) (c, h)) <= 0.
Proof.
  intros P L. set (i := if itime =? 0 then vtime else itime) in *. pose proof (C130_losses_bounded c h t itime vtime ts (t + i * 3 / 2 - 1) P ltac:(intros x X; specialize (L x X); lia)) as B. cbv zeta in B. fold i in B.
  replace (t + i * 3 / 2 - 1 - (t + i * 3 / 2)) with (-1) in B by lia. assert (-1 / i = -1) as E by (symmetry; apply (Z.div_unique (-1) i (-1) (i - 1)); lia). lia.
Qed.
(** the timer fires in time: the clock is shown at every one of these times *)
Fixpoint every (d i : Z) (n : nat) : list Z := match n with O => [] | S n' => d :: every (d + i) i n' end.
Theorem C130_losses_in_time c h t itime vtime n : 0 < (if itime =? 0 then vtime else itime) < 2 ^ 32 -> let i := if itime =? 0 then vtime else itime in
  losses (every (t + i * 3 / 2) i n) (step (Hello t itime vtime) (c, h)) = Z.of_nat n.
Proof.
  intros P i. fold i in P. cbn [step].
  assert (forall n d h, h_due h = Some d -> h_itime h = i -> losses (every d i n) (c, h) = Z.of_nat n) as X.
  { clear - P. induction n as [|n IH]; intros d h D I1; [reflexivity|]. cbn [every losses snd step]. rewrite D, Z.leb_refl. rewrite (IH (d + i)); [lia| |].
    - unfold timeout. cbn [h_due]. unfold timer_set. destruct (update_timer c true h) as [-> _]. rewrite I1. destruct (Z.eqb_spec i 0); [lia|reflexivity].
    - unfold timeout; cbn [h_itime]; destruct (update_timer c true h) as [-> _]; exact I1. }
  apply X; [|reflexivity]. unfold hello. cbn [h_due]. fold i. unfold timer_set, u64. rewrite Z.mod_small by lia. destruct (Z.eqb_spec (i * 3 / 2) 0) as [Y|_]; [|reflexivity]. pose proof (Z.div_le_lower_bound (i * 3) 2 1). lia.
Qed.
Example C130_ex : losses [2999; 3000; 3500; 5000] (step (Hello 0 2000 6000) (default, added)) = 2 /\ losses [2999] (step (Hello 0 2000 6000) (default, added)) = 0.
Proof. split; reflexivity. Qed.

Print Assumptions C129_quality.
Print Assumptions C129_hysteresis.
Print Assumptions C129_accepted_partial.
Print Assumptions C129_rejected_partial.
Print Assumptions C129_never_accepted_refuted.
Print Assumptions C129_never_rejected_refuted.
Print Assumptions C130_losses_bounded.
Print Assumptions C130_no_loss.
Print Assumptions C130_losses_in_time.
