(** Properties of the check of HELLO messages: C164. *)
From Verif Require Import Base NchkModel NchkSpec.

Lemma entry_in ty l t : In t (entry ty l) <-> In t l /\ t_type t = ty.
Proof. unfold entry. rewrite filter_In, Z.eqb_eq. reflexivity. Qed.
Lemma entry_nil ty l : entry ty l = [] <-> ~ present ty l.
Proof.
  split.
  - intros E (t & H). apply entry_in in H. rewrite E in H. destruct H.
  - intro N. destruct (entry ty l) as [|t r] eqn:E; [reflexivity|]. exfalso. apply N. exists t.
    apply entry_in. rewrite E. now left.
Qed.
Lemma entry_app ty a b : entry ty (a ++ b) = entry ty a ++ entry ty b.
Proof. apply filter_app. Qed.
Lemma entry_cons ty t l : t_type t = ty -> entry ty (t :: l) = t :: entry ty l.
Proof. intro H. unfold entry. cbn. now rewrite (proj2 (Z.eqb_eq _ _) H). Qed.
Lemma entry_first ty l t r : entry ty l = t :: r ->
  exists p q, l = p ++ t :: q /\ t_type t = ty /\ entry ty q = r.
Proof.
  revert r. induction l as [|x l IH]; intros r E; [discriminate|]. unfold entry in E. cbn in E.
  destruct (t_type x =? ty) eqn:T.
  - injection E as -> E. exists [], l. apply Z.eqb_eq in T. auto.
  - destruct (IH r E) as (p & q & -> & H). exists (x :: p), q. auto.
Qed.
Lemma entry_one ty l : at_most_one ty l <-> (entry ty l = [] \/ exists t, entry ty l = [t]).
Proof.
  split.
  - intro A. destruct (entry ty l) as [|t r] eqn:E; [now left|]. right. exists t.
    destruct (entry_first ty l t r E) as (p & q & -> & T & Q). destruct r as [|u r]; [reflexivity|].
    destruct (entry_first ty q u r Q) as (p' & q' & -> & U & _).
    exfalso. apply (A p t p' u q' eq_refl T U).
  - intros H p t q u r -> T U.
    rewrite entry_app, entry_cons, entry_app, (entry_cons ty u r U) in H by exact T.
    destruct H as [H|(x & H)].
    + destruct (entry ty p); discriminate.
    + apply (f_equal (@length tlv)) in H. rewrite app_length in H. cbn in H. rewrite app_length in H. cbn in H. lia.
Qed.
(** the test of the code for one type *)
Definition fine (ty : Z) (l : list tlv) : bool :=
  match entry ty l with [] => true | [t] => t_len t =? 1 | _ => false end.
Lemma fine_iff ty l : fine ty l = true <-> at_most_one ty l /\ len1 ty l.
Proof.
  rewrite entry_one. unfold fine, len1. assert (I := entry_in ty l).
  destruct (entry ty l) as [|t [|u r]].
  - split; [|reflexivity]. intros _. split; [now left|]. intros t H T. destruct (proj2 (I t) (conj H T)).
  - rewrite Z.eqb_eq. split.
    + intro L. split; [right; now exists t|]. intros x H T. destruct (proj2 (I x) (conj H T)) as [<-|[]]. exact L.
    + intros [_ L]. apply L; apply (proj1 (I t)); now left.
  - split; [discriminate|]. intros [[H|(x & H)] _]; discriminate.
Qed.
Lemma start_iff h : message_start h = true <-> header_ok h.
Proof.
  unfold message_start, header_ok. destruct (h_addrlen h =? 4) eqn:A; destruct (h_addrlen h =? 16) eqn:B; cbn [negb andb];
    destruct (h_hoplimit h) as [n|]; destruct (h_hopcount h) as [k|];
    try (destruct (n =? 1) eqn:N); try (destruct (k =? 0) eqn:K); cbn [negb];
    (split; intro H;
      [ try discriminate; repeat split; try (now (left + right); lia); intros x E; inversion E; lia
      | try reflexivity; exfalso; destruct H as (H1 & H2 & H3);
        try (specialize (H2 n eq_refl)); try (specialize (H3 k eq_refl)); lia ]).
Qed.
Lemma times_iff l : messagetlvs l = true <-> times_ok l.
Proof.
  unfold times_ok. assert (F1 := fine_iff 1 l). assert (F0 := fine_iff 0 l). assert (N1 := entry_nil 1 l).
  assert (I1 := entry_in 1 l). assert (I0 := entry_in 0 l).
  unfold messagetlvs, VTIME, ITIME, fine in *.
  destruct (entry 1 l) as [|v [|v' r]].
  - split; [discriminate|]. intros (P & _). exfalso. now apply (proj1 N1 eq_refl).
  - assert (Pv := proj1 (I1 v) (or_introl eq_refl)).
    assert (P : present 1 l) by (exists v; exact Pv).
    destruct (t_len v =? 1) eqn:Lv; cbn [negb].
    2:{ split; [discriminate|]. intros (_ & A & B & _). assert (X := proj2 F1 (conj A B)). discriminate. }
    destruct (proj1 F1 eq_refl) as [A1 L1].
    destruct (entry 0 l) as [|i [|i' r]].
    + split; [|reflexivity]. intros _. destruct (proj1 F0 eq_refl) as [A0 L0]. repeat (split; [assumption|]).
      intros i w Hi _ Ti _. destruct (proj2 (I0 i) (conj Hi Ti)).
    + assert (Pi := proj1 (I0 i) (or_introl eq_refl)). destruct (t_len i =? 1) eqn:Li; cbn [negb].
      2:{ split; [discriminate|]. intros (_ & _ & _ & A & B & _). assert (X := proj2 F0 (conj A B)). discriminate. }
      destruct (proj1 F0 eq_refl) as [A0 L0]. destruct (t_val i >? t_val v) eqn:G.
      * split; [discriminate|]. intros (_ & _ & _ & _ & _ & H).
        specialize (H i v (proj1 Pi) (proj1 Pv) (proj2 Pi) (proj2 Pv)). lia.
      * split; [|reflexivity]. intros _. repeat (split; [assumption|]). intros x w Hx Hw Tx Tw.
        destruct (proj2 (I0 x) (conj Hx Tx)) as [<-|[]]. destruct (proj2 (I1 w) (conj Hw Tw)) as [<-|[]]. lia.
    + split; [discriminate|]. intros (_ & _ & _ & A & B & _). assert (X := proj2 F0 (conj A B)). discriminate.
  - split; [discriminate|]. intros (_ & A & B & _). assert (X := proj2 F1 (conj A B)). discriminate.
Qed.
Lemma address_iff l : addresstlvs l = true <-> address_ok l.
Proof.
  assert (E : address_ok l <-> (fine 2 l = true /\ fine 3 l = true /\ fine 4 l = true) /\
              (entry 2 l <> [] -> entry 3 l = [] /\ entry 4 l = [])).
  { unfold address_ok. rewrite !fine_iff.
    assert (X : entry 2 l <> [] <-> present 2 l).
    { split.
      - intro H. destruct (entry 2 l) as [|t r] eqn:Q; [now destruct H|]. exists t. apply entry_in. rewrite Q. now left.
      - intros P Q. apply entry_nil in Q. contradiction. }
    rewrite X, !entry_nil. split.
    - intros [H K]. split; [|exact K]. split; [|split]; apply H; auto.
    - intros [(H2 & H3 & H4) K]. split; [|exact K]. intros ty [->|[->| ->]]; assumption. }
  rewrite E. unfold addresstlvs, fine, LOCAL_IF, LINK_STATUS, OTHER_NEIGHB. cbv zeta.
  destruct (entry 2 l) as [|a [|a' ra]]; destruct (entry 3 l) as [|b [|b' rb]]; destruct (entry 4 l) as [|c [|c' rc]];
    try destruct (t_len a =? 1); try destruct (t_len b =? 1); try destruct (t_len c =? 1); cbn;
    (split; intro H;
     [ try discriminate H; repeat split; congruence
     | try reflexivity; exfalso; destruct H as [(H1 & H2 & H3) H4]; try discriminate;
       destruct (H4 ltac:(discriminate)); discriminate ]).
Qed.

(** ** C164: only well-formed HELLO messages pass *)

(** the callbacks are exact: with the flag for addresses set the plugin would accept
    exactly the well-formed messages *)
Theorem C164_callbacks_partial : forall h, check true h = true <-> well_formed h.
Proof.
  intro h. unfold check, consume, well_formed. rewrite !Bool.andb_true_iff, start_iff, times_iff, forallb_forall.
  split.
  - intros [[A B] C]. split; [exact A|]. split; [exact B|]. intros a Ha. apply address_iff. now apply C.
  - intros (A & B & C). split; [now split|]. intros a Ha. apply address_iff. now apply C.
Qed.
(** what it does accept: header and times are right, and the message TLVs obey the rules
    for address TLVs *)
Theorem C164_header_partial : forall h,
  accepted h = true <-> header_ok h /\ times_ok (h_tlvs h) /\ address_ok (h_tlvs h).
Proof.
  intro h. unfold accepted, check, consume, address_consumer_flag.
  rewrite !Bool.andb_true_iff, start_iff, times_iff, address_iff. tauto.
Qed.
Example C164_ex :
  check true (mkHello 4 (Some 1) None [mkTlv 0 1 50; mkTlv 1 1 60] [[mkTlv 2 1 0]; [mkTlv 3 1 1; mkTlv 4 1 1]]) = true /\
  check true (mkHello 4 (Some 1) None [mkTlv 0 1 50; mkTlv 1 1 60] [[mkTlv 2 1 0; mkTlv 4 1 1]]) = false /\
  accepted (mkHello 4 (Some 2) None [mkTlv 1 1 60] []) = false /\
  accepted (mkHello 4 None (Some 0) [mkTlv 0 1 61; mkTlv 1 1 60] []) = false /\
  accepted (mkHello 16 None None [mkTlv 0 1 50; mkTlv 1 1 60] []) = true.
Proof. repeat split; reflexivity. Qed.

(** the addresses are never looked at: an address of the own interface that is also a
    link, with a LINK_STATUS of three bytes and another one, passes *)
Theorem C164_addresses_refuted : exists h, accepted h = true /\ ~ well_formed h /\
  forall al, accepted (mkHello (h_addrlen h) (h_hoplimit h) (h_hopcount h) (h_tlvs h) al) = true.
Proof.
  exists (mkHello 4 (Some 1) (Some 0) [mkTlv 0 1 50; mkTlv 1 1 60] [[mkTlv 2 1 0; mkTlv 3 3 1; mkTlv 3 1 0]]).
  split; [reflexivity|]. split; [|reflexivity].
  intro W. apply C164_callbacks_partial in W. discriminate.
Qed.
(** whatever the message, its verdict does not depend on the addresses *)
Theorem C164_addresses_ignored_partial : forall h al,
  accepted (mkHello (h_addrlen h) (h_hoplimit h) (h_hopcount h) (h_tlvs h) al) = accepted h.
Proof. reflexivity. Qed.
(** a well-formed message with a message TLV of an unknown type 3, of 2 bytes, is dropped *)
Theorem C164_dropped_refuted : exists h, well_formed h /\ accepted h = false.
Proof.
  exists (mkHello 4 (Some 1) (Some 0) [mkTlv 0 1 50; mkTlv 1 1 60; mkTlv 3 2 9] [[mkTlv 2 1 0]]).
  split; [apply C164_callbacks_partial|]; reflexivity.
Qed.

Print Assumptions C164_callbacks_partial.
Print Assumptions C164_header_partial.
Print Assumptions C164_addresses_refuted.
Print Assumptions C164_addresses_ignored_partial.
Print Assumptions C164_dropped_refuted.
