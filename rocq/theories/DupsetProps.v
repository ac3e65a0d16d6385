(** Property theorems C10-C12 (duplicate set). *)
From Verif Require Import Base DupsetModel DupsetSpec DupsetProofs.

(** C10: for every history of API calls and expiries on a duplicate set, the
    answers to the additions of one sender are those of a reference detector
    with unbounded memory and unwrapped numbers - independent of the calls for
    other senders.  ([quiet] : no expiry and no test for this sender.) *)
Theorem C10_answers_equal_unbounded_reference :
  forall (K : Type) (keqb : K -> K -> bool), (forall a b, keqb a b = true <-> a = b) ->
  forall t (m : dmap) k s0 evs,
  dfind keqb m k = None -> 0 <= s0 < width t ->
  Forall (quiet k) evs -> Forall (fun s => 0 <= s < width t) (adds_of keqb k evs) ->
  answers_of keqb k (Add k s0 true :: evs) (fst (drun keqb (dset_add t) m (Add k s0 true :: evs)))
  = FIRST :: fst (ref_run (width t) (ref_first s0) (adds_of keqb k evs)).
Proof. exact @dup_api. Qed.

(** C10: a sequence number that was accepted (NEW/NEWEST) is accepted again only
    after a reset or after the newest number moved on by a full cycle (minus
    the window). *)
Theorem C10_no_double_accept :
  forall w st s mid, 512 <= 2 * w ->
  accepted (fst (ref_add w st s)) = true ->
  let st1 := snd (ref_add w st s) in
  no_reset w st1 mid = true ->
  let st2 := snd (ref_run w st1 mid) in
  is_reset w st2 s = false ->
  accepted (fst (ref_add w st2 s)) = true ->
  r_top st1 - 31 + w <= r_top (snd (ref_add w st2 s)).
Proof. exact ref_no_double_accept. Qed.

(** C10: one-sender form of the refinement. *)
Theorem C10_one_sender_refinement :
  forall t s0 ss, 0 <= s0 < width t -> Forall (fun s => 0 <= s < width t) ss ->
  fst (impl_run (dset_add t) (impl_first s0) ss) = fst (ref_run (width t) (ref_first s0) ss).
Proof. exact dup_refines. Qed.

Example C10_ex :
  fst (impl_run (dset_add BIT16) (impl_first 65534) [65535; 2; 0; 65535; 0; 1; 2; 40; 2])
  = [NEWEST; NEWEST; NEW; DUPLICATE; DUPLICATE; NEW; CURRENT; NEWEST; TOO_OLD].
Proof. vm_compute. reflexivity. Qed.

(** C11: testing is not free of side effects: the same later addition gets a
    different answer if a test was done before. *)
Theorem C11_test_has_no_effect_refuted :
  exists (evs : list (@devent Z)) k s s',
    let ds := dset_add BIT16 in
    let m := snd (drun Z.eqb ds [] evs) in
    fst (dstep Z.eqb ds (snd (dstep Z.eqb ds m (Test k s))) (Add k s' true))
    <> fst (dstep Z.eqb ds m (Add k s' true)).
Proof.
  exists (Add 1 1000 true :: repeat (Add 1 5 true) 7), 1, 5, 5.
  vm_compute. discriminate.
Qed.

(** C11, what does hold: a test answers what an addition would answer, and it
    leaves the window (newest number and history) alone unless it resets. *)
Theorem C11_test_answers_like_add_partial :
  forall ds e s, fst (dup_test ds e s false) = fst (dup_test ds e s true) /\
  (de_too_old e + 1 <= 8 -> 0 <= de_too_old e ->
   de_current (snd (dup_test ds e s false)) = de_current e /\
   de_history (snd (dup_test ds e s false)) = de_history e).
Proof.
  intros ds e s. unfold dup_test.
  destruct (s =? de_current e); [now repeat split|]. cbv zeta.
  destruct (_ <? -31).
  { split; [destruct (_ >? _); reflexivity|]. intros H1 H2. rewrite u16_id by (unfold is_u16; lia).
    unfold MAXIMUM_TOO_OLD. destruct (Z.gtb_spec (de_too_old e + 1) 8); [lia|now split]. }
  destruct (_ <=? 0); [destruct (negb _)|]; now repeat split.
Qed.

(** C12: after eight too-old answers the ninth too-old number resets the entry. *)
Theorem C12_resync_after_too_old_burst :
  forall t ss e, de_too_old e + Z.of_nat (length ss) = 8 -> 0 <= de_too_old e ->
  Forall (too_old_for t (de_current e)) ss ->
  forall s, too_old_for t (de_current e) s ->
  impl_run (dset_add t) e (ss ++ [s]) = (repeat TOO_OLD (length ss) ++ [NEWEST], impl_first s).
Proof. exact resync. Qed.

Theorem C12_too_old_count_bounded :
  forall ds e s set r e', 0 <= de_too_old e <= 8 ->
  dup_test ds e s set = (r, e') -> 0 <= de_too_old e' <= 8.
Proof. exact dup_test_count_bound. Qed.

Example C12_ex :
  impl_run (dset_add BIT16) (impl_first 1000) [1;2;3;4;5;6;7;8;9] =
  (repeat TOO_OLD 8 ++ [NEWEST], impl_first 9) /\ too_old_for BIT16 1000 9.
Proof. split; vm_compute; reflexivity. Qed.

(** C12: the numbers need not be consecutive: CURRENT answers in between do not
    restart the count. *)
Theorem C12_only_consecutive_refuted :
  exists ss, fst (impl_run (dset_add BIT16) (impl_first 1000) ss) =
    [TOO_OLD; TOO_OLD; TOO_OLD; TOO_OLD; CURRENT; TOO_OLD; TOO_OLD; TOO_OLD; TOO_OLD; CURRENT; NEWEST]
   /\ too_old_for BIT16 1000 (last ss 0).
Proof. exists [1;1;1;1;1000;1;1;1;1;1000;1]. split; vm_compute; reflexivity. Qed.

Print Assumptions C10_answers_equal_unbounded_reference.
Print Assumptions C10_no_double_accept.
Print Assumptions C10_one_sender_refinement.
Print Assumptions C11_test_has_no_effect_refuted.
Print Assumptions C11_test_answers_like_add_partial.
Print Assumptions C12_resync_after_too_old_burst.
Print Assumptions C12_too_old_count_bounded.
Print Assumptions C12_only_consecutive_refuted.
