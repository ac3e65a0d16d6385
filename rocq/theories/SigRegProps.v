(** C115: signatures become active when their functions are there. *)
From Verif Require Import Base SigRegModel.

(** the functions that are registered, from the history alone *)
Fixpoint have_hash (t : Z) (ops : list rop) (b : bool) : bool :=
  match ops with
  | [] => b
  | AddHash u :: l => have_hash t l (if u =? t then true else b)
  | RemHash u :: l => have_hash t l (if u =? t then false else b)
  | _ :: l => have_hash t l b
  end.
Fixpoint have_crypt (t : Z) (ops : list rop) (b : bool) : bool :=
  match ops with
  | [] => b
  | AddCrypt u :: l => have_crypt t l (if u =? t then true else b)
  | RemCrypt u :: l => have_crypt t l (if u =? t then false else b)
  | _ :: l => have_crypt t l b
  end.
(** the signatures that are registered, with their functions *)
Fixpoint have_sigs (ops : list rop) (l : list (Z * Z * Z)) : list (Z * Z * Z) :=
  match ops with
  | [] => l
  | AddSig id h c :: ops' => have_sigs ops' ((id, h, c) :: l)
  | RemSig id :: ops' => have_sigs ops' (filter (fun e => negb (fst (fst e) =? id)) l)
  | _ :: ops' => have_sigs ops' l
  end.
(** crypto functions are added only while there is no signature *)
Fixpoint crypts_first (ops : list rop) (l : list (Z * Z * Z)) : Prop :=
  match ops with
  | [] => True
  | AddCrypt _ :: ops' => l = [] /\ crypts_first ops' l
  | AddSig id h c :: ops' => crypts_first ops' ((id, h, c) :: l)
  | RemSig id :: ops' => crypts_first ops' (filter (fun e => negb (fst (fst e) =? id)) l)
  | _ :: ops' => crypts_first ops' l
  end.
Definition uses_sizable (sizable : Z -> bool) (o : rop) : Prop := match o with AddSig _ _ c => sizable c = true | _ => True end.

Definition good (sizable : Z -> bool) (hs cs : list Z) (s : rsig) : Prop :=
  r_hash s = (if zin (r_hfun s) hs then Some (OHash (r_hfun s)) else None) /\
  r_crypt s = (if zin (r_cfun s) cs then Some (OCrypt (r_cfun s)) else None) /\
  sizable (r_cfun s) = true /\
  r_active s = zin (r_hfun s) hs && zin (r_cfun s) cs.
Definition tag (s : rsig) : Z * Z * Z := (r_id s, r_hfun s, r_cfun s).

Lemma zin_cons t u l : zin t (u :: l) = if u =? t then true else zin t l.
Proof. cbn. rewrite Z.eqb_sym. destruct (u =? t); reflexivity. Qed.
Lemma zin_del t u l : zin t (zdel u l) = if u =? t then false else zin t l.
Proof.
  unfold zin, zdel. induction l as [|v l IH]; cbn [filter existsb]; [destruct (u =? t); reflexivity|].
  destruct (Z.eqb_spec v u) as [->|N]; cbn [negb existsb].
  - rewrite IH. rewrite (Z.eqb_sym t u). destruct (u =? t); reflexivity.
  - rewrite IH. destruct (Z.eqb_spec u t) as [->|N2]; [|reflexivity]. destruct (Z.eqb_spec t v); [congruence|reflexivity].
Qed.

Section P.
Context (sizable : Z -> bool) (seen : Z -> Z).

Lemma each_good f l (P Q : rsig -> Prop) : (forall s, P s -> exists s', f s = Some s' /\ Q s' /\ tag s' = tag s) -> Forall P l ->
  exists l', each f l = Some l' /\ Forall Q l' /\ map tag l' = map tag l.
Proof.
  intros H F. induction F as [|s l Hs F IH]; [exists []; cbn; auto|].
  destruct IH as (l' & E1 & E2 & E3). destruct (H s Hs) as (s' & A1 & A2 & A3). exists (s' :: l'). cbn. rewrite A1, E1, E3, A3. auto.
Qed.

Lemma handle_good hs cs s a : r_hash s = (if zin (r_hfun s) hs then Some (OHash (r_hfun s)) else None) ->
  r_crypt s = (if zin (r_cfun s) cs then Some (OCrypt (r_cfun s)) else None) -> sizable (r_cfun s) = true -> r_active s = a ->
  exists s', handle_postprocessor sizable s = Some s' /\ good sizable hs cs s' /\ tag s' = tag s.
Proof.
  intros H C Z0 A. unfold handle_postprocessor. rewrite H, C, A.
  destruct (zin (r_hfun s) hs) eqn:EH, (zin (r_cfun s) cs) eqn:EC, a; cbn [isSome negb andb orb]; rewrite ?Z0;
    (eexists; split; [reflexivity|split; [|reflexivity]]); unfold good, set_active; cbn; rewrite ?EH, ?EC; auto.
Qed.

Lemma ops_good ops : forall r l, Forall (uses_sizable sizable) ops -> crypts_first ops l ->
  Forall (good sizable (hashes r) (crypts r)) (sigs r) -> map tag (sigs r) = l ->
  exists r', rrun sizable seen ops r = Some r' /\ Forall (good sizable (hashes r') (crypts r')) (sigs r') /\
    map tag (sigs r') = have_sigs ops l /\
    (forall t, zin t (hashes r') = have_hash t ops (zin t (hashes r))) /\ (forall t, zin t (crypts r') = have_crypt t ops (zin t (crypts r))).
Proof.
  induction ops as [|o ops IH]; intros r l U CF G T.
  - exists r. cbn. auto.
  - pose proof (Forall_inv U) as U0. apply Forall_inv_tail in U.
    assert (forall r1 l1, rstep sizable seen o r = Some r1 -> crypts_first ops l1 -> Forall (good sizable (hashes r1) (crypts r1)) (sigs r1) -> map tag (sigs r1) = l1 ->
      have_sigs (o :: ops) l = have_sigs ops l1 ->
      (forall t, have_hash t (o :: ops) (zin t (hashes r)) = have_hash t ops (zin t (hashes r1))) ->
      (forall t, have_crypt t (o :: ops) (zin t (crypts r)) = have_crypt t ops (zin t (crypts r1))) ->
      exists r', rrun sizable seen (o :: ops) r = Some r' /\ Forall (good sizable (hashes r') (crypts r')) (sigs r') /\
        map tag (sigs r') = have_sigs (o :: ops) l /\
        (forall t, zin t (hashes r') = have_hash t (o :: ops) (zin t (hashes r))) /\ (forall t, zin t (crypts r') = have_crypt t (o :: ops) (zin t (crypts r)))) as K.
    { intros r1 l1 S1 C1 G1 T1 E1 E2 E3. destruct (IH r1 l1 U C1 G1 T1) as (r' & A1 & A2 & A3 & A4 & A5). exists r'.
      cbn [rrun]. rewrite S1. split; [exact A1|]. split; [exact A2|]. split; [congruence|]. split; intros t; [now rewrite E2, A4|now rewrite E3, A5]. }
    destruct o as [t|t|t|t|id h c|id]; cbn [crypts_first] in CF.
    + destruct (each_good (fun s => if (r_hfun s =? t) && negb (isSome (r_hash s)) then handle_postprocessor sizable (set_hash s (Some (OHash t))) else Some s)
        (sigs r) (good sizable (hashes r) (crypts r)) (good sizable (t :: hashes r) (crypts r))) as (l' & E1 & E2 & E3); [|exact G|].
      { intros s (A1 & A2 & A3 & A4). destruct (Z.eqb_spec (r_hfun s) t) as [<-|N]; cbn [andb].
        - rewrite A1. destruct (zin (r_hfun s) (hashes r)) eqn:EH; cbn [isSome negb].
          + exists s. split; [reflexivity|split; [|reflexivity]]. unfold good. rewrite zin_cons, Z.eqb_refl. rewrite A1, A2, A4. auto.
          + destruct (handle_good (r_hfun s :: hashes r) (crypts r) (set_hash s (Some (OHash (r_hfun s)))) (r_active s)) as (s' & B1 & B2 & B3); auto.
            { cbn [set_hash r_hash r_hfun]. now rewrite zin_cons, Z.eqb_refl. }
            exists s'. auto.
        - exists s. split; [reflexivity|split; [|reflexivity]]. unfold good. rewrite zin_cons. destruct (Z.eqb_spec t (r_hfun s)); [congruence|auto]. }
      eapply (K {| hashes := t :: hashes r; crypts := crypts r; sigs := l' |} l); cbn [rstep hashes crypts sigs have_sigs have_hash have_crypt]; auto.
      * unfold hash_added. rewrite E1. reflexivity.
      * congruence.
      * intros u. rewrite zin_cons. reflexivity.
    + destruct (each_good (fun s => if (r_hfun s =? t) && isSome (r_hash s) then handle_postprocessor sizable (set_hash s None) else Some s)
        (sigs r) (good sizable (hashes r) (crypts r)) (good sizable (zdel t (hashes r)) (crypts r))) as (l' & E1 & E2 & E3); [|exact G|].
      { intros s (A1 & A2 & A3 & A4). destruct (Z.eqb_spec (r_hfun s) t) as [<-|N]; cbn [andb].
        - rewrite A1. destruct (zin (r_hfun s) (hashes r)) eqn:EH; cbn [isSome negb].
          + destruct (handle_good (zdel (r_hfun s) (hashes r)) (crypts r) (set_hash s None) (r_active s)) as (s' & B1 & B2 & B3); auto.
            { cbn [set_hash r_hash r_hfun]. now rewrite zin_del, Z.eqb_refl. }
            exists s'. auto.
          + exists s. split; [reflexivity|split; [|reflexivity]]. unfold good. rewrite zin_del, Z.eqb_refl. rewrite A1, A2, A4. auto.
        - exists s. split; [reflexivity|split; [|reflexivity]]. unfold good. rewrite zin_del. destruct (Z.eqb_spec t (r_hfun s)); [congruence|auto]. }
      eapply (K {| hashes := zdel t (hashes r); crypts := crypts r; sigs := l' |} l); cbn [rstep hashes crypts sigs have_sigs have_hash have_crypt]; auto.
      * unfold hash_removed. rewrite E1. reflexivity.
      * congruence.
      * intros u. rewrite zin_del. reflexivity.
    + destruct CF as [-> CF].
      assert (sigs r = []) as ES by (destruct (sigs r); [reflexivity|discriminate]).
      eapply (K {| hashes := hashes r; crypts := t :: crypts r; sigs := [] |} []); cbn [rstep hashes crypts sigs have_sigs have_hash have_crypt]; auto.
      * rewrite ES. reflexivity.
      * intros u. rewrite zin_cons. reflexivity.
    + destruct (each_good (fun s => if (r_cfun s =? t) && isSome (r_crypt s) then handle_postprocessor sizable (set_crypt s None) else Some s)
        (sigs r) (good sizable (hashes r) (crypts r)) (good sizable (hashes r) (zdel t (crypts r)))) as (l' & E1 & E2 & E3); [|exact G|].
      { intros s (A1 & A2 & A3 & A4). destruct (Z.eqb_spec (r_cfun s) t) as [<-|N]; cbn [andb].
        - rewrite A2. destruct (zin (r_cfun s) (crypts r)) eqn:EH; cbn [isSome negb].
          + destruct (handle_good (hashes r) (zdel (r_cfun s) (crypts r)) (set_crypt s None) (r_active s)) as (s' & B1 & B2 & B3); auto.
            { cbn [set_crypt r_crypt r_cfun]. now rewrite zin_del, Z.eqb_refl. }
            exists s'. auto.
          + exists s. split; [reflexivity|split; [|reflexivity]]. unfold good. rewrite zin_del, Z.eqb_refl. rewrite A1, A2, A4. auto.
        - exists s. split; [reflexivity|split; [|reflexivity]]. unfold good. rewrite zin_del. destruct (Z.eqb_spec t (r_cfun s)); [congruence|auto]. }
      eapply (K {| hashes := hashes r; crypts := zdel t (crypts r); sigs := l' |} l); cbn [rstep hashes crypts sigs have_sigs have_hash have_crypt]; auto.
      * unfold crypt_removed. rewrite E1. reflexivity.
      * congruence.
      * intros u. rewrite zin_del. reflexivity.
    + destruct (handle_good (hashes r) (crypts r) {| r_id := id; r_hfun := h; r_cfun := c;
                r_hash := if zin h (hashes r) then Some (OHash h) else None;
                r_crypt := if zin c (crypts r) then Some (OCrypt c) else None; r_active := false |} false) as (s' & B1 & B2 & B3); auto.
      eapply (K {| hashes := hashes r; crypts := crypts r; sigs := s' :: sigs r |} ((id, h, c) :: l)); cbn [rstep hashes crypts sigs have_sigs have_hash have_crypt]; auto.
      * rewrite B1. reflexivity.
      * cbn [map]. rewrite B3, T. reflexivity.
    + eapply (K {| hashes := hashes r; crypts := crypts r; sigs := filter (fun s => negb (r_id s =? id)) (sigs r) |} (filter (fun e => negb (fst (fst e) =? id)) l));
        cbn [rstep hashes crypts sigs have_sigs have_hash have_crypt]; auto.
      * apply Forall_forall. intros s I0. apply filter_In in I0 as [I0 _]. rewrite Forall_forall in G. auto.
      * rewrite <- T. clear. induction (sigs r) as [|s k IHk]; cbn; [reflexivity|]. destruct (negb (r_id s =? id)); cbn; now rewrite IHk.
Qed.
End P.

(** If crypto functions are registered while there is no signature, then after
    every history exactly the registered signatures are there, and one of them
    signs outgoing data exactly if its two functions are registered; nothing
    crashes if all used functions can tell the size of an ICV. *)
Theorem C115_active_partial sizable seen ops :
  Forall (uses_sizable sizable) ops -> crypts_first ops [] ->
  exists r, rrun sizable seen ops reg0 = Some r /\ map (fun s => (r_id s, r_hfun s, r_cfun s)) (sigs r) = have_sigs ops [] /\
    forall s, In s (sigs r) -> r_active s = have_hash (r_hfun s) ops (0 =? r_hfun s) && have_crypt (r_cfun s) ops (0 =? r_cfun s).
Proof.
  intros U CF. destruct (ops_good sizable seen ops reg0 [] U CF) as (r & A1 & A2 & A3 & A4 & A5); [constructor|reflexivity|].
  exists r. split; [exact A1|]. split; [exact A3|]. intros s I0. rewrite Forall_forall in A2. apply A2 in I0 as (_ & _ & _ & E).
  rewrite E, A4, A5. cbn [reg0 hashes crypts zin existsb]. rewrite !orb_false_r, (Z.eqb_sym 0 (r_hfun s)), (Z.eqb_sym 0 (r_cfun s)). reflexivity.
Qed.
Example C115_ex :
  let ops := [AddHash 3; AddCrypt 3; AddSig 1 3 3; AddSig 2 4 3; RemHash 3; AddHash 4; AddHash 3; RemHash 4] in
  crypts_first ops [] /\ Forall (uses_sizable (fun c => c =? 3)) ops /\
  exists r, rrun (fun c => c =? 3) (fun t => t) ops reg0 = Some r /\ map r_active (sigs r) = [false; true].
Proof. cbv zeta. split; [cbn; auto|]. split; [repeat constructor|]. eexists. split; reflexivity. Qed.

(** False of the code: a signature whose crypto function is registered later
    stays inactive for ever: messages go out unsigned.  The event is raised for
    the wrong class. *)
Theorem C115_crypt_late_refuted : forall sizable seen id h c, h <> 0 -> c <> 0 ->
  exists r s, rrun sizable seen [AddHash h; AddSig id h c; AddCrypt c] reg0 = Some r /\ sigs r = [s] /\ zin h (hashes r) = true /\ zin c (crypts r) = true /\
    r_active s = false /\ r_crypt s = None.
Proof.
  intros sizable seen id h c NH NC. cbn [rrun rstep reg0 sigs hashes crypts hash_added each]. 
  assert (zin c [0] = false) as EC by (cbn; destruct (Z.eqb_spec c 0); [contradiction|reflexivity]). rewrite EC.
  assert (zin h (h :: [0]) = true) as EH by (rewrite zin_cons, Z.eqb_refl; reflexivity). rewrite EH.
  cbn [handle_postprocessor r_active r_hash r_crypt isSome negb andb orb]. unfold hash_added. cbn [each r_hfun r_hash isSome negb].
  cbn [sigs each r_hfun r_hash isSome negb]. destruct (h =? seen c); cbn [andb negb isSome]; eexists; eexists; (split; [reflexivity|]; cbn [sigs hashes crypts r_active r_crypt]; split; [reflexivity|]; split; [exact EH|]; split; [rewrite zin_cons, Z.eqb_refl; reflexivity|auto]).
Qed.
(** False of the code: with the wrong class a crypto object can be taken for a
    hash (SHA-256 and HMAC both have number 3), if both have their type at the
    same place. *)
Theorem C115_confusion_refuted : exists r s, rrun (fun c => c =? 3) (fun t => t) [AddSig 1 3 3; AddCrypt 3] reg0 = Some r /\ In s (sigs r) /\
  r_hash s = Some (OCrypt 3) /\ zin 3 (hashes r) = false.
Proof. eexists. eexists. split; [vm_compute; reflexivity|]. split; [left; reflexivity|]. split; reflexivity. Qed.
(** False of the code: the identity crypto function of the module itself
    crashes every signature that uses it. *)
Theorem C115_identity_refuted : forall sizable seen id, sizable 0 = false -> rrun sizable seen [AddSig id 0 0] reg0 = None.
Proof. intros sizable seen id Z0. cbn. rewrite Z0. reflexivity. Qed.

Print Assumptions C115_active_partial.
Print Assumptions C115_crypt_late_refuted.
Print Assumptions C115_confusion_refuted.
Print Assumptions C115_identity_refuted.
