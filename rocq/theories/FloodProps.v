(** C119 and C120: flooded messages are processed and forwarded once. *)
From Verif Require Import Base DupsetModel DupsetSpec DupsetProofs TimerModel FloodModel.

(** ** What is expected *)
(** The messages of an originator are numbered 0, 1, 2, ...; [evs] has the
    number of each copy of a message that arrives.  [cnt]: which copies count. *)
Definition of_key (k : fkey) (m : fmsg) : bool :=
  match m_orig m with Some o => (m_type m =? fst k) && (o =? snd k) | None => false end.
Fixpoint first_copies (cnt : fmsg -> bool) (k : fkey) (seen : list Z) (evs : list (fop * Z)) : list bool :=
  match evs with
  | [] => []
  | (Recv m, n) :: evs' =>
      if of_key k m then
        if cnt m then negb (existsb (Z.eqb n) seen) :: first_copies cnt k (n :: seen) evs'
        else false :: first_copies cnt k seen evs'
      else first_copies cnt k seen evs'
  | _ :: evs' => first_copies cnt k seen evs'
  end.
(** Copies are not more than 31 messages late and not 2^15 early; sequence
    numbers are the numbers modulo 2^16. *)
Fixpoint in_window (cnt : fmsg -> bool) (k : fkey) (top : option Z) (evs : list (fop * Z)) : Prop :=
  match evs with
  | [] => True
  | (Recv m, n) :: evs' =>
      if of_key k m then
        m_seq m = Some (n mod 65536) /\ 0 <= n /\
        if cnt m then
          match top with Some t => t - 31 <= n < t + 32768 | None => True end /\
          in_window cnt k (Some (match top with Some t => Z.max t n | None => n end)) evs'
        else in_window cnt k top evs'
      else in_window cnt k top evs'
  | _ :: evs' => in_window cnt k top evs'
  end.
(** what happened to the copies of the messages of [k] *)
Fixpoint happened (what : bool * bool -> bool) (k : fkey) (evs : list (fop * Z)) (outs : list (option (bool * bool))) : list bool :=
  match evs, outs with
  | (Recv m, _) :: evs', Some r :: outs' => if of_key k m then what r :: happened what k evs' outs' else happened what k evs' outs'
  | _ :: evs', _ :: outs' => happened what k evs' outs'
  | _, _ => []
  end.
Fixpoint duration (evs : list (fop * Z)) : Z :=
  match evs with [] => 0 | (Wait d, _) :: evs' => Z.max 0 d + duration evs' | _ :: evs' => duration evs' end.
(** no overflow of the 64 bit clock *)
Definition sane (limit : Z) (e : fop * Z) : Prop :=
  match fst e with Recv m => 0 <= m_vtime m /\ m_vtime m + limit < 2 ^ 64 | _ => True end.

(** ** Proofs *)
Lemma fkeqb_eq a b : fkeqb a b = true <-> a = b.
Proof.
  unfold fkeqb. rewrite andb_true_iff, !Z.eqb_eq. destruct a, b; cbn. split; [intros []; congruence|intros E; injection E; auto].
Qed.
Lemma tfind_del j k m : tfind j (tdel k m) = if fkeqb k j then None else tfind j m.
Proof.
  unfold tdel. induction m as [|[i e] m IH]; cbn [filter tfind fst]; [destruct (fkeqb k j); reflexivity|].
  destruct (fkeqb i k) eqn:EK; cbn [negb tfind].
  - rewrite IH. apply fkeqb_eq in EK. subst i. destruct (fkeqb k j); reflexivity.
  - rewrite IH. destruct (fkeqb i j) eqn:EJ; [|reflexivity]. apply fkeqb_eq in EJ. subst i.
    destruct (fkeqb k j) eqn:EX; [|reflexivity]. apply fkeqb_eq in EX. subst k. rewrite (proj2 (fkeqb_eq j j) eq_refl) in EK. discriminate.
Qed.
Lemma tfind_put j k e m : tfind j (tput k e m) = if fkeqb k j then Some e else tfind j m.
Proof. unfold tput. cbn [tfind]. rewrite tfind_del. destruct (fkeqb k j); reflexivity. Qed.

Lemma deadline_after now rel : 0 <= now -> 0 <= rel -> now + rel + 200 < 2 ^ 64 -> now + rel < deadline now rel.
Proof.
  intros N R L. unfold deadline, calc_clock. cbn [negb Z.eqb]. change (0 =? 0) with true. cbn [negb].
  assert (u64 (now + rel) = now + rel) as -> by (unfold u64; apply Z.mod_small; lia).
  unfold SLICE. assert (u64 (now + rel + 100) = now + rel + 100) as -> by (unfold u64; apply Z.mod_small; lia).
  pose proof (Z.mod_pos_bound (now + rel + 100) 100 ltac:(lia)).
  assert (forall x, 0 <= x < 2 ^ 64 -> u64 x = x) as U by (intros x X; unfold u64; apply Z.mod_small; exact X).
  rewrite U by lia. lia.
Qed.

(** what is in a set about [k]: nothing was seen, or the numbers [seen] with the
    newest [top], and the entry lives until [limit] *)
Definition knows (k : fkey) (limit : Z) (seen : list Z) (top : option Z) (m : fset) : Prop :=
  match tfind k m with
  | None => seen = [] /\ top = None
  | Some (e, t) => limit <= t /\ exists r, sim BIT16 e r /\ top = Some (r_top r) /\ r_old r = 0 /\ forall p, In p (r_seen r) <-> In p seen
  end.

Lemma circ_near n top : top - 32768 <= n < top + 32768 -> circ_dist 65536 (n mod 65536) top = n - top.
Proof.
  intros H. unfold circ_dist. change (65536 / 2) with 32768. rewrite Zminus_mod_idemp_l.
  destruct (Z.ltb_spec ((n - top) mod 65536) 32768) as [L|L].
  - destruct (Z_lt_ge_dec n top) as [B|B]; [|now rewrite Z.mod_small in * by lia].
    replace (n - top) with (n - top + 65536 + (-1) * 65536) in L by lia. rewrite Z.mod_add, Z.mod_small in L by lia. lia.
  - destruct (Z_lt_ge_dec n top) as [B|B]; [|rewrite Z.mod_small in L by lia; lia].
    replace (n - top) with (n - top + 65536 + (-1) * 65536) at 1 by lia. rewrite Z.mod_add, Z.mod_small by lia. lia.
Qed.

Lemma existsb_in n l : existsb (Z.eqb n) l = true <-> In n l.
Proof. exact (inb_In n l). Qed.

Lemma add_mine k limit seen top m n now vt : knows k limit seen top m -> 0 <= n ->
  match top with Some t => t - 31 <= n < t + 32768 | None => True end -> limit <= deadline now vt ->
  exists r m', dup_add now m k (n mod 65536) vt = (r, m') /\ dup_is_new r = negb (existsb (Z.eqb n) seen) /\
    (knows k limit (n :: seen) (Some (match top with Some t => Z.max t n | None => n end)) m').
Proof.
  intros K N0 W L. unfold knows in K. unfold dup_add. destruct (tfind k m) as [[e t]|] eqn:F.
  - destruct K as (LT & r & S0 & -> & O & SE). destruct (dup_test (dset_add BIT16) e (n mod 65536) true) as [ia e'] eqn:EI.
    destruct (ref_add (width BIT16) r (n mod 65536)) as [ra r'] eqn:ER.
    assert (0 <= n mod 65536 < width BIT16) as B by (apply Z.mod_pos_bound; reflexivity).
    destruct (sim_step BIT16 e r _ S0 B ra r' ia e' ER EI) as [-> S1].
    eexists. eexists. split; [reflexivity|].
    assert (inb (r_top r) (r_seen r) = true) as TI by apply S0.
    assert (forall p, In p (r_seen r) -> p <= r_top r) as TB by apply S0.
    unfold ref_add in ER. change (width BIT16) with 65536 in ER. rewrite (circ_near n (r_top r)) in ER by lia.
    replace (r_top r + (n - r_top r)) with n in ER by lia. cbv zeta in ER.
    assert (forall b, existsb (Z.eqb n) seen = b <-> inb n (r_seen r) = b) as EQ.
    { assert (existsb (Z.eqb n) seen = true <-> inb n (r_seen r) = true) as Q by (rewrite existsb_in, inb_In; symmetry; apply SE).
      destruct (existsb (Z.eqb n) seen), (inb n (r_seen r)); intros b; destruct b; split; try reflexivity; try discriminate; intros; exfalso; intuition discriminate. }
    assert (limit <= (if dup_is_new ra then deadline now vt else t)) as LL by (destruct (dup_is_new ra); assumption).
    unfold knows. rewrite tfind_put, (proj2 (fkeqb_eq k k) eq_refl).
    destruct (Z.eqb_spec n (r_top r)) as [E|E].
    { injection ER as <- <-. split.
      - cbn [dup_is_new]. rewrite (proj2 (EQ true)); [reflexivity|]. rewrite E. exact TI.
      - split; [exact LL|]. exists r. split; [exact S1|]. split; [f_equal; lia|]. split; [exact O|].
        intros p. rewrite SE. cbn. split; [auto|]. intros [<-|H]; [|exact H]. apply SE. rewrite E. apply inb_In. exact TI. }
    destruct (Z.ltb_spec n (r_top r - 31)) as [X|_]; [lia|].
    destruct (inb n (r_seen r)) eqn:I0.
    { injection ER as <- <-. split; [cbn [dup_is_new]; now rewrite (proj2 (EQ true) eq_refl)|].
      split; [exact LL|]. eexists. split; [exact S1|]. cbn [r_top r_old r_seen]. apply inb_In in I0. split; [f_equal; apply TB in I0; lia|]. split; [reflexivity|].
      intros p. rewrite SE. cbn. split; [auto|]. intros [<-|H]; [|exact H]. apply SE, I0. }
    destruct (Z.ltb_spec n (r_top r)) as [X|X]; injection ER as <- <-;
      (split; [cbn [dup_is_new]; now rewrite (proj2 (EQ false) eq_refl)|]; split; [exact LL|]; eexists; split; [exact S1|]; cbn [r_top r_old r_seen];
       split; [f_equal; lia|]; split; [reflexivity|]; intros p; cbn; rewrite SE; reflexivity).
  - destruct K as [-> ->]. eexists. eexists. split; [reflexivity|]. split; [reflexivity|].
    unfold knows. rewrite tfind_put, (proj2 (fkeqb_eq k k) eq_refl). split; [exact L|].
    assert (0 <= n mod 65536 < 65536) as B by (apply Z.mod_pos_bound; reflexivity).
    destruct (sim_first BIT16 (n mod 65536) B) as (A1 & A2 & A3 & A4 & A5 & A6 & A7 & A8).
    exists (ref_first n). split; [|split; [reflexivity|split; [reflexivity|intros p; reflexivity]]].
    unfold sim, ref_first. cbn [de_current de_history de_too_old r_top r_seen r_old] in *.
    split; [exact B|]. split; [reflexivity|]. split; [exact A3|]. split; [intros p [<-|[]]; lia|].
    split; [|split; [cbn; now rewrite Z.eqb_refl|split; [reflexivity|lia]]].
    intros j J. etransitivity; [exact (A5 j J)|]. unfold ref_first. cbn [r_top r_seen inb existsb]. rewrite !orb_false_r.
    destruct (Z.eqb_spec (n mod 65536 - j) (n mod 65536)), (Z.eqb_spec (n - j) n); lia || reflexivity.
Qed.
Lemma add_other k limit seen top m k' q now vt : knows k limit seen top m -> k' <> k ->
  knows k limit seen top (snd (dup_add now m k' q vt)).
Proof.
  intros K N. assert (fkeqb k' k = false) as E by (destruct (fkeqb k' k) eqn:X; [apply fkeqb_eq in X; contradiction|reflexivity]).
  unfold dup_add. destruct (tfind k' m) as [[e t]|]; [destruct (dup_test _ e q true) as [r e']|]; cbn [snd]; unfold knows; rewrite tfind_put, E; exact K.
Qed.
Lemma expire_keeps k limit seen top m k' now : knows k limit seen top m -> now < limit -> knows k limit seen top (expire now k' m).
Proof.
  intros K L. unfold expire. destruct (tfind k' m) as [[e t]|] eqn:F; [|exact K]. destruct (Z.leb_spec t now) as [T|T]; [|exact K].
  destruct (fkeqb k' k) eqn:E.
  - apply fkeqb_eq in E. subst k'. unfold knows in K. rewrite F in K. destruct K as [K _]. lia.
  - unfold knows. rewrite tfind_del, E. exact K.
Qed.

Section P.
Context (c : fconf).

Definition all_count (m : fmsg) : bool := true.
(** a copy that came by flooding *)
Definition flooded (m : fmsg) : bool := match m_iface m with Some false => m_src m | _ => false end.
(** the sender has selected this router as flooding MPR and is symmetric *)
Definition selector (m : fmsg) : Prop :=
  m_nhdp m = true /\ exists l, m_link m = Some l /\ l_mpr l = true /\
  if m_samefam m then 0 < l_sym l else exists n, l_partner l = Some n /\ 0 < n.

Lemma sender_ok_iff m : sender_ok m = true <-> selector m.
Proof.
  unfold sender_ok, selector. destruct (m_nhdp m); cbn [negb]; [|intuition discriminate].
  destruct (m_link m) as [l|]; [|split; [discriminate|intros (_ & l & A & _); discriminate]].
  split.
  - intros H. split; [reflexivity|]. exists l. split; [reflexivity|]. destruct (m_samefam m).
    + apply andb_true_iff in H as [H1 H2]. apply Z.gtb_lt in H2. auto.
    + destruct (l_partner l) as [n|]; [|discriminate]. apply andb_true_iff in H as [H1 H2]. apply Z.gtb_lt in H2. split; [exact H1|]. exists n. auto.
  - intros (_ & l' & E & H1 & H2). injection E as <-. rewrite H1. cbn [andb]. destruct (m_samefam m); [now apply Z.gtb_lt|].
    destruct H2 as (n & -> & H2). now apply Z.gtb_lt.
Qed.

Lemma of_key_orig k m : of_key k m = true -> exists o, m_orig m = Some o /\ (m_type m, o) = k.
Proof.
  unfold of_key. destruct (m_orig m) as [o|]; [|discriminate]. intros H. apply andb_true_iff in H as [A B]. apply Z.eqb_eq in A, B.
  exists o. split; [reflexivity|]. destruct k; cbn in *; congruence.
Qed.
Lemma of_key_not k m o : of_key k m = false -> m_orig m = Some o -> (m_type m, o) <> k.
Proof. unfold of_key. intros H E. rewrite E in H. intros <-. cbn in H. rewrite !Z.eqb_refl in H. discriminate. Qed.

Lemma forward_proc s m : s_proc (fst (shall_forward c s m)) = s_proc s /\ s_now (fst (shall_forward c s m)) = s_now s.
Proof.
  unfold shall_forward. destruct (m_orig m), (m_seq m); auto. destruct (m_iface m) as [[|]|]; auto; destruct (m_src m); cbn [negb]; auto.
  destruct (dup_add _ _ _ _ _) as [r f]. destruct (dup_is_new r); auto.
Qed.
Lemma process_fwd s m : s_fwd (fst (shall_process c s m)) = s_fwd s /\ s_now (fst (shall_process c s m)) = s_now s.
Proof. unfold shall_process. destruct (m_orig m), (m_seq m); auto. destruct (dup_add _ _ _ _ _) as [r f]. auto. Qed.

Lemma sane_deadline limit now m : 0 <= now -> 0 <= f_hold c -> limit <= now + f_hold c -> 0 <= m_vtime m -> m_vtime m + (now + f_hold c + 200) < 2 ^ 64 ->
  limit <= deadline now (u64 (m_vtime m + f_hold c)).
Proof.
  intros A B C D E. assert (u64 (m_vtime m + f_hold c) = m_vtime m + f_hold c) as -> by (unfold u64; apply Z.mod_small; lia).
  pose proof (deadline_after now (m_vtime m + f_hold c) A ltac:(lia) ltac:(lia)). lia.
Qed.
Lemma duration_nonneg evs : 0 <= duration evs.
Proof. induction evs as [|[[m|d|k|k] n] evs IH]; cbn [duration]; lia. Qed.

Lemma process_run k limit evs : forall s seen top s' outs, knows k limit seen top (s_proc s) -> 0 <= s_now s -> 0 <= f_hold c ->
  limit <= s_now s + f_hold c -> s_now s + duration evs < limit ->
  Forall (sane (s_now s + duration evs + f_hold c + 200)) evs -> in_window all_count k top evs ->
  frun c (map fst evs) s = (s', outs) -> happened fst k evs outs = first_copies all_count k seen evs.
Proof.
  induction evs as [|[o n] evs IH]; intros s seen top s' outs K N0 FH LH LT SA W E; cbn [map fst frun] in E.
  { injection E as <- <-. reflexivity. }
  destruct (fstep c o s) as [s1 r] eqn:ES. destruct (frun c (map fst evs) s1) as [s2 rs] eqn:ER. injection E as <- <-.
  pose proof (duration_nonneg evs) as DN.
  destruct o as [m|d|j|j]; cbn [fstep] in ES.
  - destruct (shall_forward c s m) as [s3 f] eqn:EF. destruct (shall_process c s3 m) as [s4 p] eqn:EP. injection ES as <- <-.
    destruct (forward_proc s m) as [P1 P2]. rewrite EF in P1, P2. cbn [fst] in P1, P2.
    destruct (process_fwd s3 m) as [_ P3]. rewrite EP in P3. cbn [fst] in P3.
    cbn [happened first_copies in_window duration] in *. pose proof (Forall_inv SA) as S1. unfold sane in S1. cbn [fst] in S1.
    assert (Forall (sane (s_now s4 + duration evs + f_hold c + 200)) evs) as SA' by (rewrite P3, P2; exact (Forall_inv_tail SA)).
    destruct (of_key k m) eqn:OK.
    + destruct (of_key_orig k m OK) as (og & EO & EK). destruct W as (SQ & Nn & W). unfold all_count at 1 in W. destruct W as [W1 W2]. change (all_count m) with true. cbn iota.
      unfold shall_process in EP. rewrite EO, SQ, EK, P1, P2 in EP.
      destruct (add_mine k limit seen top (s_proc s) n (s_now s) (u64 (m_vtime m + f_hold c)) K Nn W1) as (ra & m' & EA & EN & K').
      { apply sane_deadline; lia. }
      rewrite EA in EP. injection EP as <- <-. cbn [fst]. rewrite EN. f_equal. refine (IH {| s_now := s_now s; s_proc := m'; s_fwd := s_fwd s3 |} (n :: seen) _ _ _ K' _ _ _ _ SA' W2 ER); cbn [s_now]; lia.
    + assert (knows k limit seen top (s_proc s4)) as K'.
      { unfold shall_process in EP. destruct (m_orig m) as [og|] eqn:EO; [|injection EP as <- <-; now rewrite P1].
        destruct (m_seq m) as [q|]; [|injection EP as <- <-; now rewrite P1].
        pose proof (add_other k limit seen top (s_proc s3) (m_type m, og) q (s_now s3) (u64 (m_vtime m + f_hold c))) as AO.
        destruct (dup_add _ _ _ _ _) as [ra m']. injection EP as <- <-. cbn [s_proc snd] in *. apply AO; [now rewrite P1|]. exact (of_key_not k m og OK EO). }
      refine (IH _ seen _ _ _ K' _ _ _ _ SA' W ER); lia.
  - injection ES as <- <-. cbn [happened first_copies in_window duration] in *.
    refine (IH _ seen top _ _ _ _ _ _ _ _ W ER); cbn [s_proc s_now]; try exact K; try lia.
    replace (s_now s + Z.max 0 d + duration evs) with (s_now s + (Z.max 0 d + duration evs)) by lia. exact (Forall_inv_tail SA).
  - injection ES as <- <-. cbn [happened first_copies in_window duration] in *.
    refine (IH _ seen top _ _ _ _ _ _ _ _ W ER); cbn [s_proc s_now]; try lia; [|exact (Forall_inv_tail SA)]. apply expire_keeps; [exact K|lia].
  - injection ES as <- <-. cbn [happened first_copies in_window duration] in *.
    refine (IH _ seen top _ _ _ _ _ _ _ _ W ER); cbn [s_proc s_now]; try lia; [exact K|exact (Forall_inv_tail SA)].
Qed.

(** ** C119: every message is processed exactly once *)
(** Within the hold time: if the copies of the messages of a router come less
    than 32 messages late, then the first copy of each is processed, and no
    other one. *)
Theorem C119_once_partial k evs s s' outs : tfind k (s_proc s) = None -> 0 <= s_now s -> duration evs < f_hold c ->
  Forall (sane (s_now s + duration evs + f_hold c + 200)) evs -> in_window all_count k None evs ->
  frun c (map fst evs) s = (s', outs) -> happened fst k evs outs = first_copies all_count k [] evs.
Proof.
  intros F N D SA W E. pose proof (duration_nonneg evs). apply (process_run k (s_now s + f_hold c) evs s [] None s' outs); auto; try lia.
  unfold knows. rewrite F. auto.
Qed.

(** what forwarding has to do with a copy *)
Fixpoint forwards (k : fkey) (seen : list Z) (evs : list (fop * Z)) (fs : list bool) : Prop :=
  match evs with
  | [] => fs = []
  | (Recv m, n) :: evs' =>
      if of_key k m then exists f fs', fs = f :: fs' /\
        (f = true <-> flooded m = true /\ ~ In n seen /\ selector m) /\
        forwards k (if flooded m then n :: seen else seen) evs' fs'
      else forwards k seen evs' fs
  | _ :: evs' => forwards k seen evs' fs
  end.

Lemma forward_run k limit evs : forall s seen top s' outs, knows k limit seen top (s_fwd s) -> 0 <= s_now s -> 0 <= f_hold c ->
  limit <= s_now s + f_hold c -> s_now s + duration evs < limit ->
  Forall (sane (s_now s + duration evs + f_hold c + 200)) evs -> in_window flooded k top evs ->
  frun c (map fst evs) s = (s', outs) -> forwards k seen evs (happened snd k evs outs).
Proof.
  induction evs as [|[o n] evs IH]; intros s seen top s' outs K N0 FH LH LT SA W E; cbn [map fst frun] in E.
  { injection E as <- <-. reflexivity. }
  destruct (fstep c o s) as [s1 r] eqn:ES. destruct (frun c (map fst evs) s1) as [s2 rs] eqn:ER. injection E as <- <-.
  pose proof (duration_nonneg evs) as DN.
  destruct o as [m|d|j|j]; cbn [fstep] in ES.
  - destruct (shall_forward c s m) as [s3 f] eqn:EF. destruct (shall_process c s3 m) as [s4 p] eqn:EP. injection ES as <- <-.
    destruct (forward_proc s m) as [_ P2]. rewrite EF in P2. cbn [fst] in P2.
    destruct (process_fwd s3 m) as [P1 P3]. rewrite EP in P1, P3. cbn [fst] in P1, P3.
    cbn [happened forwards in_window duration] in *. pose proof (Forall_inv SA) as S1. unfold sane in S1. cbn [fst] in S1.
    assert (Forall (sane (s_now s4 + duration evs + f_hold c + 200)) evs) as SA' by (rewrite P3, P2; exact (Forall_inv_tail SA)).
    unfold shall_forward in EF.
    destruct (of_key k m) eqn:OK.
    + destruct (of_key_orig k m OK) as (og & EO & EK). destruct W as (SQ & Nn & W). rewrite EO, SQ, EK in EF.
      exists f, (happened snd k evs rs). split; [reflexivity|]. destruct (flooded m) eqn:FL.
      * destruct W as [W1 W2]. unfold flooded in FL. destruct (m_iface m) as [[|]|]; try discriminate. rewrite FL in EF. cbn [negb] in EF.
        destruct (add_mine k limit seen top (s_fwd s) n (s_now s) (u64 (m_vtime m + f_hold c)) K Nn W1) as (ra & m' & EA & EN & K').
        { apply sane_deadline; lia. }
        rewrite EA in EF. split.
        -- rewrite <- existsb_in, <- sender_ok_iff. destruct (dup_is_new ra); cbn [negb] in EF; injection EF as <- <-.
           ++ destruct (existsb (Z.eqb n) seen); [discriminate|]. intuition discriminate.
           ++ destruct (existsb (Z.eqb n) seen); [|discriminate]. intuition discriminate.
        -- assert (s_fwd s3 = m') as E3 by (destruct (dup_is_new ra); cbn [negb] in EF; injection EF as <- <-; reflexivity).
           rewrite <- E3, <- P1 in K'. refine (IH _ (n :: seen) _ _ _ K' _ _ _ _ SA' W2 ER); lia.
      * assert ((s, false) = (s3, f)) as EQ.
        { unfold flooded in FL. destruct (m_iface m) as [[|]|]; [|rewrite FL in EF; exact EF|exact EF]. destruct (m_src m); exact EF. }
        injection EQ as <- <-. split; [split; [discriminate|intros (X & _); discriminate]|].
        rewrite <- P1 in K. refine (IH _ seen _ _ _ K _ _ _ _ SA' W ER); lia.
    + assert (knows k limit seen top (s_fwd s4)) as K'.
      { rewrite P1. destruct (m_orig m) as [og|] eqn:EO; [|injection EF as <- <-; exact K]. destruct (m_seq m) as [q|]; [|injection EF as <- <-; exact K].
        destruct (m_iface m) as [u|]; [|injection EF as <- <-; exact K]. destruct (m_src m); cbn [negb] in EF; [|injection EF as <- <-; exact K].
        destruct u; [injection EF as <- <-; exact K|].
        pose proof (add_other k limit seen top (s_fwd s) (m_type m, og) q (s_now s) (u64 (m_vtime m + f_hold c)) K (of_key_not k m og OK EO)) as AO.
        destruct (dup_add _ _ _ _ _) as [ra m']. cbn [snd] in AO. destruct (dup_is_new ra); cbn [negb] in EF; injection EF as <- <-; exact AO. }
      refine (IH _ seen _ _ _ K' _ _ _ _ SA' W ER); lia.
  - injection ES as <- <-. cbn [happened forwards in_window duration] in *.
    refine (IH _ seen top _ _ _ _ _ _ _ _ W ER); cbn [s_fwd s_now]; try exact K; try lia.
    replace (s_now s + Z.max 0 d + duration evs) with (s_now s + (Z.max 0 d + duration evs)) by lia. exact (Forall_inv_tail SA).
  - injection ES as <- <-. cbn [happened forwards in_window duration] in *.
    refine (IH _ seen top _ _ _ _ _ _ _ _ W ER); cbn [s_fwd s_now]; try lia; [exact K|exact (Forall_inv_tail SA)].
  - injection ES as <- <-. cbn [happened forwards in_window duration] in *.
    refine (IH _ seen top _ _ _ _ _ _ _ _ W ER); cbn [s_fwd s_now]; try lia; [|exact (Forall_inv_tail SA)]. apply expire_keeps; [exact K|lia].
Qed.

(** ** C120: messages are forwarded once, for routers that selected this one *)
(** Within the hold time a copy is forwarded if and only if it is the first one
    flooded to this router and comes from a symmetric neighbor that selected it
    as flooding MPR. *)
Theorem C120_forward_partial k evs s s' outs : tfind k (s_fwd s) = None -> 0 <= s_now s -> duration evs < f_hold c ->
  Forall (sane (s_now s + duration evs + f_hold c + 200)) evs -> in_window flooded k None evs ->
  frun c (map fst evs) s = (s', outs) -> forwards k [] evs (happened snd k evs outs).
Proof.
  intros F N D SA W E. pose proof (duration_nonneg evs). apply (forward_run k (s_now s + f_hold c) evs s [] None s' outs); auto; try lia.
  unfold knows. rewrite F. auto.
Qed.
(** Whatever happened before: nothing is forwarded for anybody else. *)
Theorem C120_only_selectors s m : snd (shall_forward c s m) = true -> flooded m = true /\ selector m.
Proof.
  unfold shall_forward, flooded. destruct (m_orig m); [|discriminate]. destruct (m_seq m); [|discriminate]. destruct (m_iface m) as [u|]; [|discriminate].
  destruct (m_src m); cbn [negb]; [|discriminate]. destruct u; [discriminate|]. destruct (dup_add _ _ _ _ _) as [r f]. destruct (dup_is_new r); cbn [negb snd]; [|discriminate].
  rewrite sender_ok_iff. auto.
Qed.
End P.

(** ** Examples and refutations *)
Definition conf : fconf := {| f_hold := 300000; p_hold := 300000 |}.
Definition good_link : flink := {| l_mpr := true; l_up := true; l_sym := 1; l_partner := None |}.
Definition tc (n vt : Z) (l : option flink) : fop * Z :=
  (Recv {| m_type := 1; m_orig := Some 9; m_seq := Some (n mod 65536); m_vtime := vt; m_iface := Some false; m_src := true; m_samefam := true; m_nhdp := true; m_link := l |}, n).
Definition ex_evs : list (fop * Z) :=
  [tc 65534 1000 (Some good_link); tc 65534 1000 None; (Wait 5000, 0); tc 65537 1000 (Some good_link); tc 65536 1000 None; tc 65536 1000 (Some good_link); tc 65535 1000 (Some good_link); tc 65537 1000 (Some good_link)].
Example C119_ex : duration ex_evs < f_hold conf /\ Forall (sane (0 + duration ex_evs + f_hold conf + 200)) ex_evs /\ in_window all_count (1, 9) None ex_evs /\
  first_copies all_count (1, 9) [] ex_evs = [true; false; true; true; false; true; false].
Proof. split; [cbn; lia|]. split; [repeat constructor; cbn; lia|]. split; [cbn; intuition lia|reflexivity]. Qed.
Example C120_ex : in_window flooded (1, 9) None ex_evs /\
  happened snd (1, 9) ex_evs (snd (frun conf (map fst ex_evs) fst0)) = [true; false; true; false; false; true; false].
Proof. split; [cbn; intuition lia|vm_compute; reflexivity]. Qed.

(** False of the code: the processing hold time is not used, the forwarding hold
    time is; with a shorter one a message is processed twice within the
    processing hold time. *)
Theorem C119_processing_hold_refuted : exists c evs s' outs, 100 <= f_hold c /\ duration evs < p_hold c /\ in_window all_count (1, 9) None evs /\
  Forall (sane (duration evs + f_hold c + p_hold c + 200)) evs /\
  frun c (map fst evs) fst0 = (s', outs) /\ happened fst (1, 9) evs outs = [true; true] /\ first_copies all_count (1, 9) [] evs = [true; false].
Proof.
  exists {| f_hold := 100; p_hold := 300000 |}, [tc 5 1000 None; (Wait 2000, 0); (ExpP (1, 9), 0); tc 5 1000 None]. eexists. eexists.
  split; [cbn; lia|]. split; [cbn; lia|]. split; [cbn; intuition lia|]. split; [repeat constructor; cbn; lia|].
  split; [vm_compute; reflexivity|]. split; reflexivity.
Qed.
(** False of the code: the sum of validity and hold time overflows for the
    infinite validity time (time TLV 255), so the message is remembered for a
    shorter time than any other. *)
Theorem C119_infinite_refuted : exists evs s' outs vt, vt = 2 ^ 64 - 1 /\ Forall (fun e => match fst e with Recv m => m_vtime m = vt | _ => True end) evs /\
  duration evs <= f_hold conf + 100 /\ frun conf (map fst evs) fst0 = (s', outs) /\
  happened fst (1, 9) evs outs = [true; true] /\ first_copies all_count (1, 9) [] evs = [true; false].
Proof.
  exists [tc 5 (2 ^ 64 - 1) None; (Wait 300000, 0); (ExpP (1, 9), 0); tc 5 (2 ^ 64 - 1) None]. eexists. eexists. exists (2 ^ 64 - 1).
  split; [reflexivity|]. split; [repeat constructor|]. split; [vm_compute; discriminate|]. split; [vm_compute; reflexivity|]. split; reflexivity.
Qed.
(** False of the code: a message with a short validity time makes the router
    forget earlier ones with a long validity time. *)
Theorem C119_shorter_refuted : exists evs s' outs, duration evs < 1000000 /\
  Forall (fun e => match fst e with Recv m => m_seq m = Some 5 -> m_vtime m = 1000000 | _ => True end) evs /\
  in_window all_count (1, 9) None evs /\ frun conf (map fst evs) fst0 = (s', outs) /\
  happened fst (1, 9) evs outs = [true; true; true] /\ first_copies all_count (1, 9) [] evs = [true; true; false].
Proof.
  exists [tc 5 1000000 None; tc 6 10 None; (Wait 300200, 0); (ExpP (1, 9), 0); tc 5 1000000 None]. eexists. eexists.
  split; [cbn; lia|]. split; [repeat (apply Forall_cons; [vm_compute; (exact Logic.I || (intros; congruence))|]); apply Forall_nil|]. split; [cbn; intuition lia|]. split; [vm_compute; reflexivity|]. split; reflexivity.
Qed.
(** False of the code: a copy from a stranger (not a neighbor of this router)
    stops the forwarding of the message for the routers that rely on it; without
    that copy it is forwarded. *)
Theorem C120_stranger_refuted : exists m0 m1 n, m_link m0 = None /\ selector m1 /\ m_seq m0 = m_seq m1 /\ m_orig m0 = m_orig m1 /\
  happened snd (1, 9) [(Recv m1, n)] (snd (frun conf [Recv m1] fst0)) = [true] /\
  happened snd (1, 9) [(Recv m0, n); (Recv m1, n)] (snd (frun conf [Recv m0; Recv m1] fst0)) = [false; false].
Proof.
  exists (match fst (tc 5 1000 None) with Recv m => m | _ => {| m_type := 0; m_orig := None; m_seq := None; m_vtime := 0; m_iface := None; m_src := false; m_samefam := false; m_nhdp := false; m_link := None |} end).
  exists {| m_type := 1; m_orig := Some 9; m_seq := Some 5; m_vtime := 1000; m_iface := Some false; m_src := true; m_samefam := true; m_nhdp := true; m_link := Some good_link |}, 5.
  split; [reflexivity|]. split; [split; [reflexivity|exists good_link; cbn; intuition lia]|]. repeat split; vm_compute; reflexivity.
Qed.
(** False of the code: the link a copy came from need not be symmetric any more,
    another symmetric link to the same neighbor is enough. *)
Theorem C120_link_refuted : exists m l s', m_link m = Some l /\ l_up l = false /\ fst (fstep conf (Recv m) fst0) = s' /\ snd (fstep conf (Recv m) fst0) = Some (true, true).
Proof.
  exists {| m_type := 1; m_orig := Some 9; m_seq := Some 5; m_vtime := 1000; m_iface := Some false; m_src := true; m_samefam := true; m_nhdp := true;
            m_link := Some {| l_mpr := true; l_up := false; l_sym := 1; l_partner := None |} |}.
  eexists. eexists. split; [reflexivity|]. split; [reflexivity|]. split; vm_compute; reflexivity.
Qed.

Print Assumptions C119_once_partial.
Print Assumptions C119_processing_hold_refuted.
Print Assumptions C119_infinite_refuted.
Print Assumptions C119_shorter_refuted.
Print Assumptions C120_forward_partial.
Print Assumptions C120_only_selectors.
Print Assumptions C120_stranger_refuted.
Print Assumptions C120_link_refuted.
