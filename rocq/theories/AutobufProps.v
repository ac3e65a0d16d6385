(** Theorems about autobuf.c: C32, C33. *)
From Verif Require Import Base BitsModel BufLemmas SplitLemmas StrBase StringModel StringSpec AutobufModel AutobufSpec AutobufProofs.

(** C32: after every history of legal calls, for every behaviour of the
    allocator, the buffer holds exactly the bytes added and not removed, and the
    next legal call makes no access outside of the allocated memory; it fails
    only for lack of memory (and then changes nothing, see [aspec]). *)
Theorem C32_contents : forall page s a, page_ok page -> Reach page s a ->
  abuf_content a = Some (fst s) /\ ab_len a = zlen (fst s) /\
  forall e o, aop_ok s e o -> exists r a', astep page e a o = Some (r, a') /\
    (r = ares o \/ r = -1 /\ may_fail page (fst s) e o).
Proof.
  intros page s a Hp R. pose proof (reach_inv page Hp s a R) as I. destruct (Inv_content _ _ _ I) as (C & L & _).
  split; auto. split; auto. intros e o OK. destruct s as [c t].
  destruct (step_spec page Hp e a c t o I OK) as (r & a' & E & Q & _). eauto.
Qed.
(** calls that add raw memory or text, pull what is there, clear or free are
    always legal *)
Theorem C32_plain_calls_legal : forall s e o,
  match o with
  | APuts x => no_nul x /\ zlen x <= 2147483647 | AMemcpy x | APrepend x => zlen x <= max_obj
  | APull n => 0 <= n <= zlen (fst s) | AClear | AFree => True | _ => False
  end -> aop_ok s e o.
Proof. intros [c t] e o H. destruct o; cbn in *; auto; contradiction. Qed.

(** Concrete runs, with a small page. *)
Definition good : env := {| e_ok := true; e_junk := 9 |}.
Definition bad : env := {| e_ok := false; e_junk := 9 |}.
Definition page0 : abuf := {| ab_total := 16; ab_len := 0; ab_buf := Some (repeat 0 (Z.to_nat 16)); ab_err := false |}.
Lemma page0_init : abuf_init 16 true = Some page0.
Proof. reflexivity. Qed.
Lemma page_16 : page_ok 16.
Proof. exists 4. lia. Qed.

(** reaching a state by running a history *)
Lemma reach_run h : forall s a rs a', Reach 16 s a -> arun 16 a h = Some (rs, a') ->
  (fix ok s (h : list (env * aop)) rs := match h, rs with
    | (e, o) :: h, r :: rs => aop_ok s e o /\ ok (aspec s o r) h rs | _, _ => True end) s h rs ->
  exists s', Reach 16 s' a' /\ s' = (fix f s (h : list (env * aop)) rs := match h, rs with (e, o) :: h, r :: rs => f (aspec s o r) h rs | _, _ => s end) s h rs.
Proof.
  induction h as [|(e, o) h IH]; intros s a rs a' R E OK; cbn [arun] in E.
  - injection E as <- <-. eauto.
  - destruct (astep 16 e a o) as [(r, a1)|] eqn:E1; [|discriminate]. destruct (arun 16 a1 h) as [(rs1, a2)|] eqn:E2; [|discriminate].
    injection E as <- <-. destruct OK as (OK1 & OK2). apply (IH _ a1); auto. eapply Reach_step; eauto.
Qed.
(** a history with a failing and a growing allocation, a prepend and a pull *)
Example C32_ex : exists a, Reach 16 (98 :: repeat 7 25, false) a /\ ab_total a = 32.
Proof.
  destruct (arun 16 page0 [(good, APuts [97; 98]); (bad, AMemcpy (repeat 7 25)); (good, AMemcpy (repeat 7 25));
     (good, APrepend [1; 0]); (good, APull 3)]) as [(rs, a)|] eqn:E; [|vm_compute in E; discriminate].
  assert (rs = [2; -1; 0; 0; 0] /\ ab_total a = 32) as (-> & T).
  { vm_compute in E. injection E as <- <-. split; reflexivity. }
  exists a. split; auto.
  destruct (reach_run _ ([], true) page0 _ a (Reach_init 16 page0 page0_init) E) as (s' & R & ->); [|exact R].
  assert (zlen (repeat 7 25) = 25) as Q by (rewrite zlen_repeat; reflexivity).
  cbn [aop_ok aspec fst]. cbn -[zlen repeat]. unfold max_obj.
  split; [split; [repeat constructor; discriminate|vm_compute; discriminate]|]. rewrite Q.
  split; [lia|]. split; [lia|]. split; [vm_compute; discriminate|]. split; [|auto]. rewrite !zlen_cons, Q. lia.
Qed.

(** the full claim about formatted output is false: a failing allocation in
    abuf_appendf writes a zero behind the content, which is outside of the
    memory if abuf_pull has shrunk the allocation to the content *)
Theorem C32_appendf_refuted : exists s a, Reach 16 s a /\ abuf_appendf 16 bad a [66] = None.
Proof.
  destruct (arun 16 page0 [(good, AMemcpy (repeat 65 (Z.to_nat 17))); (good, APull 1)]) as [(rs, a)|] eqn:E; [|vm_compute in E; discriminate].
  assert (rs = [0; 0] /\ abuf_appendf 16 bad a [66] = None) as (-> & T).
  { vm_compute in E. injection E as <- <-. split; [reflexivity|vm_compute; reflexivity]. }
  destruct (reach_run _ ([], true) page0 _ a (Reach_init 16 page0 page0_init) E) as (s' & R & ->); [|eauto].
  assert (zlen (repeat 65 (Z.to_nat 17)) = 17) as Q by (rewrite zlen_repeat; reflexivity).
  cbn -[zlen repeat Z.to_nat]. rewrite Q. unfold max_obj. repeat (split; try lia).
Qed.
(** "the buffer can still be used" after abuf_free, but a failing allocation in
    abuf_appendf then writes through NULL *)
Theorem C32_appendf_after_free_refuted : exists s a, Reach 16 s a /\ abuf_appendf 16 bad a [66] = None.
Proof.
  eexists _, _. split.
  - eapply (Reach_step 16 _ _ good AFree); [apply Reach_init; reflexivity|exact Logic.I|reflexivity].
  - vm_compute. reflexivity.
Qed.
(** "will truncate the length by the total amount of memory in the buffer" *)
Theorem C32_setlen_refuted : exists s a n, Reach 16 s a /\ n = ab_total a /\ abuf_setlen a n = None.
Proof.
  eexists _, _, 16. split; [apply Reach_init; reflexivity|]. split; [reflexivity|]. vm_compute. reflexivity.
Qed.

(** C33: the content is followed by a zero byte as long as nothing was pulled
    after the last successful addition *)
Theorem C33_terminated_partial : forall page c a, page_ok page -> Reach page (c, true) a ->
  exists b r, ab_buf a = Some b /\ b = c ++ 0 :: r /\ (no_nul c -> strlen b 0 = Some (ab_len a)).
Proof.
  intros page c a Hp R. pose proof (reach_inv page Hp _ a R) as I. destruct (Inv_content _ _ _ I) as (C & L & F).
  cbn [fst snd] in *. destruct (F eq_refl) as (b & r & Hb & Eb). exists b, r. split; auto. split; auto. intros N.
  rewrite L, Eb. clear - N. unfold strlen. change (0 <? 0) with false. cbn iota. change (skipn (Z.to_nat 0) (c ++ 0 :: r)) with (c ++ 0 :: r).
  induction N as [|z l Z N IH]; cbn [app strlen_from]; [reflexivity|].
  destruct (Z.eqb_spec z 0); [contradiction|]. rewrite IH. f_equal. rewrite zlen_cons. reflexivity.
Qed.
(** an addition that succeeds establishes the flag, so only pulled buffers are in doubt *)
Theorem C33_addition_terminates : forall c t o r, 0 <= r -> 
  match o with APuts _ | AAppendf _ | AStrftime _ _ => True | AMemcpy x | APrepend x => x <> [] | _ => False end ->
  snd (aspec (c, t) o r) = true.
Proof.
  intros c t o r R H. unfold aspec. destruct (Z.ltb_spec r 0); [lia|].
  destruct o; cbn; auto; try contradiction; destruct p; auto; contradiction.
Qed.
Example C33_ex : exists a, Reach 16 ([97; 98], true) a.
Proof.
  eexists. eapply (Reach_step 16 ([], true) page0 good (APuts [97; 98]) 2); [apply Reach_init; reflexivity| |vm_compute; reflexivity].
  split; [repeat constructor; discriminate|vm_compute; discriminate].
Qed.
(** abuf_pull leaves the old byte behind the content *)
Theorem C33_pull_refuted : exists a b, Reach 16 ([98], false) a /\ ab_buf a = Some b /\ ab_len a = 1 /\
  strlen b 0 = Some 2.
Proof.
  destruct (arun 16 page0 [(good, APuts [97; 98]); (good, APull 1)]) as [(rs, a)|] eqn:E; [|vm_compute in E; discriminate].
  assert (rs = [2; 0] /\ exists b, ab_buf a = Some b /\ ab_len a = 1 /\ strlen b 0 = Some 2) as (-> & b & T).
  { vm_compute in E. injection E as <- <-. split; [reflexivity|]. eexists. split; [reflexivity|]. split; vm_compute; reflexivity. }
  exists a, b. split; auto.
  destruct (reach_run _ ([], true) page0 _ a (Reach_init 16 page0 page0_init) E) as (s' & R & ->); [|exact R].
  cbn -[zlen]. split; [split; [repeat constructor; discriminate|vm_compute; discriminate]|]. split; [|exact Logic.I]. vm_compute. split; discriminate.
Qed.

Print Assumptions C32_contents.
Print Assumptions C32_plain_calls_legal.
Print Assumptions C32_appendf_refuted.
Print Assumptions C32_appendf_after_free_refuted.
Print Assumptions C32_setlen_refuted.
Print Assumptions C33_terminated_partial.
Print Assumptions C33_addition_terminates.
Print Assumptions C33_pull_refuted.
