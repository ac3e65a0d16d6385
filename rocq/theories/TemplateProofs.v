(** Proofs about template.c. *)
From Verif Require Import Base BitsModel BufLemmas SplitLemmas StrBase StringModel StringSpec StringProofs TemplateModel TemplateSpec.

Lemma str_eqb_eq a : forall b, str_eqb a b = true <-> a = b.
Proof.
  induction a as [|x a IH]; intros [|y b]; cbn; split; try discriminate; try reflexivity.
  - intros H. apply andb_true_iff in H. destruct H as (H1 & H2). apply Z.eqb_eq in H1. apply IH in H2. congruence.
  - intros [= -> ->]. rewrite Z.eqb_refl. cbn. now apply IH.
Qed.
Lemma find_spec data name : name <> [] -> match find_template data name with
  | Some d => Names data name d | None => Unknown data name end.
Proof.
  intros N. induction data as [|e data IH]; cbn [find_template].
  - right. intros e [].
  - destruct (str_eqb (te_key e) name) eqn:E.
    + apply str_eqb_eq in E. split; auto. split; auto. exists [], data. split; [reflexivity|intros x []].
    + assert (te_key e <> name) as Ne by (intros Q; apply str_eqb_eq in Q; congruence).
      destruct (find_template data name) as [d|].
      * destruct IH as (A & B & be & af & -> & P). split; auto. split; auto. exists (e :: be), af. split; auto.
        intros x [<-|X]; auto.
      * destruct IH as [IH|IH]; [contradiction|]. right. intros x [<-|X]; auto.
Qed.
Lemma Names_fun data name d d' : Names data name d -> Names data name d' -> d = d'.
Proof.
  intros (_ & K & b1 & a1 & -> & P1) (_ & K' & b2 & a2 & E & P2).
  revert b2 E P2. induction b1 as [|x b1 IH]; intros b2 E P2.
  - destruct b2 as [|y b2]; cbn in E; [congruence|]. injection E as -> _. exfalso. apply (P2 y); cbn; auto.
  - destruct b2 as [|y b2]; cbn in E.
    + injection E as -> _. exfalso. apply (P1 d'); cbn; auto.
    + injection E as -> E. apply (IH) with (b2 := b2); auto; intros e X; [apply P1|apply P2]; cbn; auto.
Qed.
Lemma Names_unknown data name d : Names data name d -> Unknown data name -> False.
Proof.
  intros (N & K & b & a & -> & _) [U|U]; [contradiction|]. apply (U d); auto. apply in_or_app. cbn. auto.
Qed.

(** ** Scanning *)
Lemma loop_units data F u : Units u -> forall r pos start no idx,
  init_loop data F (u ++ r) pos start no false idx = init_loop data F r (pos + zlen u) start no false idx.
Proof.
  induction 1 as [|v r0 V U IH]; intros r pos start no idx.
  - cbn [app]. change (zlen []) with 0. now rewrite Z.add_0_r.
  - rewrite <- app_assoc, zlen_app. destruct V as [c C1 C2|c]; cbn [app init_loop negb andb].
    + destruct (Z.eqb_spec c 37); [contradiction|]. destruct (Z.eqb_spec c 92); [contradiction|].
      rewrite IH. change (zlen [c]) with 1. f_equal. lia.
    + change (92 =? 37) with false. change (92 =? 92) with true. cbn [andb negb].
      change (zlen [92; c]) with 2.
      destruct (Z.eqb_spec c 92); rewrite IH; f_equal; lia.
Qed.
(** the part up to the next percent sign *)
Lemma scan r : exists u, Units u /\ (r = u \/ r = u ++ [92] \/ exists f, r = u ++ 37 :: f).
Proof.
  remember (length r) as n eqn:N. revert r N. induction n as [n IH] using lt_wf_ind; intros r N.
  destruct r as [|c r]; [exists []; split; [constructor|auto]|].
  destruct (Z.eq_dec c 37) as [->|C1]; [exists []; split; [constructor|]; right; right; exists r; reflexivity|].
  destruct (Z.eq_dec c 92) as [->|C2].
  - destruct r as [|d r]; [exists []; split; [constructor|]; auto|].
    destruct (IH (length r)) with (r := r) as (u & U & H); [cbn in N; lia|reflexivity|].
    exists ([92; d] ++ u). split; [constructor; [constructor|auto]|].
    destruct H as [->|[->|(f & ->)]]; [left|right; left|right; right; exists f]; reflexivity.
  - destruct (IH (length r)) with (r := r) as (u & U & H); [cbn in N; lia|reflexivity|].
    exists ([c] ++ u). split; [constructor; [now constructor|auto]|].
    destruct H as [->|[->|(f & ->)]]; [left|right; left|right; right; exists f]; reflexivity.
Qed.

Lemma add_end_at pre mid keys acc : add_loop (pre ++ mid) [] keys (zlen pre) acc = Some (acc ++ mid).
Proof.
  cbn [add_loop]. rewrite zlen_app. pose proof (zlen_nonneg mid). destruct (Z.ltb_spec (zlen pre) (zlen pre + zlen mid)).
  - replace (Z.to_nat (zlen pre + zlen mid - zlen pre)) with (length mid) by (unfold zlen; lia).
    pose proof (copy_out_split mid pre [] (zlen pre) eq_refl) as Q. rewrite app_nil_r in Q. now rewrite Q.
  - assert (mid = []) as -> by (apply zlen_zero; lia). now rewrite app_nil_r.
Qed.
Lemma add_index_at pre mid post i l keys acc : ti_start i = zlen (pre ++ mid) ->
  add_loop (pre ++ mid ++ post) (i :: l) keys (zlen pre) acc =
  add_loop (pre ++ mid ++ post) l keys (ti_end i) (acc ++ mid ++ show keys (ti_data i)).
Proof.
  intros E. cbn [add_loop]. rewrite E, zlen_app. pose proof (zlen_nonneg mid).
  assert ((if zlen pre <? zlen pre + zlen mid then copy_out (pre ++ mid ++ post) (zlen pre) (Z.to_nat (zlen pre + zlen mid - zlen pre)) else Some []) = Some mid) as ->.
  { destruct (Z.ltb_spec (zlen pre) (zlen pre + zlen mid)).
    - replace (Z.to_nat (zlen pre + zlen mid - zlen pre)) with (length mid) by (unfold zlen; lia). now apply copy_out_split.
    - assert (mid = []) as -> by (apply zlen_zero; lia). reflexivity. }
  unfold show, show_value. destruct keys; reflexivity.
Qed.

Lemma template_main data : forall n rest, (length rest <= n)%nat -> forall done start,
  exists k l, zlen l = k /\
    (forall idx, init_loop data (done ++ rest) rest (zlen done) start true false idx =
       if zlen idx + k <=? TEMPLATE_MAX_KEYS then Some (idx ++ l) else if k =? 0 then Some idx else None) /\
    forall keys, exists out, Subst data (show keys) rest out k /\
      forall pre mid acc, done = pre ++ mid -> add_loop (done ++ rest) l keys (zlen pre) acc = Some (acc ++ mid ++ out).
Proof.
  assert (forall rest done start,
    (forall idx, init_loop data (done ++ rest) rest (zlen done) start true false idx = Some idx) ->
    (forall sh, Subst data sh rest rest 0) ->
    exists k l, zlen l = k /\
    (forall idx, init_loop data (done ++ rest) rest (zlen done) start true false idx =
       if zlen idx + k <=? TEMPLATE_MAX_KEYS then Some (idx ++ l) else if k =? 0 then Some idx else None) /\
    forall keys, exists out, Subst data (show keys) rest out k /\
      forall pre mid acc, done = pre ++ mid -> add_loop (done ++ rest) l keys (zlen pre) acc = Some (acc ++ mid ++ out)) as PLAIN.
  { intros rest done start H1 H2. exists 0, []. split; [reflexivity|]. split.
    - intros idx. rewrite H1, app_nil_r. cbn [Z.eqb]. now destruct (_ <=? _).
    - intros keys. exists rest. split; [apply H2|]. intros pre mid acc ->. rewrite <- app_assoc. apply add_end_at. }
  induction n as [|n IH]; intros rest L done start.
  { destruct rest; [|cbn in L; lia]. apply PLAIN; [reflexivity|constructor]. }
  destruct rest as [|c r]; [apply PLAIN; [reflexivity|constructor]|]. cbn [length] in L.
  destruct (Z.eq_dec c 37) as [->|C1].
  - (* percent sign *)
    assert (forall idx, init_loop data (done ++ 37 :: r) (37 :: r) (zlen done) start true false idx =
      init_loop data (done ++ 37 :: r) r (zlen done + 1) (zlen done) false false idx) as STEP by reflexivity.
    destruct (scan r) as (u & U & [->|[->|(f & ->)]]).
    + apply PLAIN; [|now constructor]. intros idx. rewrite STEP. pose proof (loop_units data (done ++ 37 :: u) u U [] (zlen done + 1) (zlen done) false idx) as Q.
      rewrite app_nil_r in Q. rewrite Q. reflexivity.
    + apply PLAIN; [|now constructor]. intros idx. rewrite STEP, (loop_units data _ u U). reflexivity.
    + assert (forall idx, init_loop data (done ++ 37 :: u ++ 37 :: f) (37 :: u ++ 37 :: f) (zlen done) start true false idx =
        match (match u with [] => None | _ => find_template data u end) with
        | None => init_loop data ((done ++ 37 :: u ++ [37]) ++ f) f (zlen (done ++ 37 :: u ++ [37])) (zlen done) true false idx
        | Some d => match add_index idx {| ti_data := d; ti_start := zlen done; ti_end := zlen (done ++ 37 :: u ++ [37]) |} with
                    | None => None
                    | Some idx => init_loop data ((done ++ 37 :: u ++ [37]) ++ f) f (zlen (done ++ 37 :: u ++ [37])) (zlen done) true false idx
                    end
        end) as STEP2.
      { intros idx. rewrite STEP, (loop_units data _ u U). cbn [init_loop negb andb]. change (37 =? 37) with true. cbn iota.
        assert (zlen done + 1 + zlen u + 1 = zlen (done ++ 37 :: u ++ [37])) as LE.
        { rewrite zlen_app, zlen_cons, zlen_app. change (zlen [37]) with 1. lia. }
        rewrite LE. assert ((done ++ 37 :: u ++ [37]) ++ f = done ++ 37 :: u ++ 37 :: f) as ->.
        { rewrite <- app_assoc. cbn [app]. now rewrite <- app_assoc. }
        rewrite Z.gtb_ltb. destruct u as [|x u].
        - change (zlen []) with 0. destruct (Z.ltb_spec 1 (zlen done + 1 + 0 - zlen done)); [lia|]. reflexivity.
        - pose proof (zlen_nonneg u). destruct (Z.ltb_spec 1 (zlen done + 1 + zlen (x :: u) - zlen done)); [|rewrite zlen_cons in *; lia].
          replace (Z.to_nat (zlen done + 1 + zlen (x :: u) - zlen done - 1)) with (length (x :: u)) by (unfold zlen; cbn; lia).
          replace (done ++ 37 :: (x :: u) ++ 37 :: f) with ((done ++ [37]) ++ (x :: u) ++ 37 :: f) at 1 by (now rewrite <- app_assoc).
          rewrite copy_out_split; [|rewrite zlen_app; reflexivity].
          destruct (find_template data (x :: u)); reflexivity. }
      destruct (IH f) with (done := done ++ 37 :: u ++ [37]) (start := zlen done) as (k & l & Lk & I1 & A1).
      { rewrite app_length in L. cbn [length] in L. lia. }
      assert ((done ++ 37 :: u ++ [37]) ++ f = done ++ 37 :: u ++ 37 :: f) as EF.
      { rewrite <- app_assoc. cbn [app]. now rewrite <- app_assoc. }
      assert (Unknown data u -> (match u with [] => None | _ => find_template data u end) = None ->
         exists k l, zlen l = k /\
    (forall idx, init_loop data (done ++ 37 :: u ++ 37 :: f) (37 :: u ++ 37 :: f) (zlen done) start true false idx =
       if zlen idx + k <=? TEMPLATE_MAX_KEYS then Some (idx ++ l) else if k =? 0 then Some idx else None) /\
    forall keys, exists out, Subst data (show keys) (37 :: u ++ 37 :: f) out k /\
      forall pre mid acc, done = pre ++ mid -> add_loop (done ++ 37 :: u ++ 37 :: f) l keys (zlen pre) acc = Some (acc ++ mid ++ out)) as UNKNOWN.
      { intros UK EN. exists k, l. split; auto. split.
        - intros idx. rewrite STEP2, EN. apply I1.
        - intros keys. destruct (A1 keys) as (out & S1 & A2). exists (37 :: u ++ 37 :: out). split; [now constructor|].
          intros pre mid acc E. specialize (A2 pre (mid ++ 37 :: u ++ [37]) acc). rewrite EF in A2. rewrite A2.
          + rewrite <- !app_assoc. cbn [app]. now rewrite <- !app_assoc.
          + rewrite E. now rewrite <- app_assoc. }
      destruct u as [|x u]; [apply UNKNOWN; [now left|reflexivity]|]. cbn iota in *.
      pose proof (find_spec data (x :: u) ltac:(discriminate)) as FS.
      destruct (find_template data (x :: u)) as [d|]; [|apply UNKNOWN; auto].
      clear UNKNOWN. set (i := {| ti_data := d; ti_start := zlen done; ti_end := zlen (done ++ 37 :: (x :: u) ++ [37]) |}) in *.
      exists (k + 1), (i :: l). split; [rewrite zlen_cons; lia|]. pose proof (zlen_nonneg l). split.
      * intros idx. rewrite STEP2. unfold add_index, TEMPLATE_MAX_KEYS in *. destruct (Z.ltb_spec (zlen idx) 64).
        -- rewrite I1. rewrite zlen_app. change (zlen [i]) with 1.
           replace (zlen idx + 1 + k) with (zlen idx + (k + 1)) by lia.
           destruct (Z.leb_spec (zlen idx + (k + 1)) 64); [now rewrite <- app_assoc|].
           destruct (Z.eqb_spec k 0); [lia|]. destruct (Z.eqb_spec (k + 1) 0); [lia|]. reflexivity.
        -- destruct (Z.leb_spec (zlen idx + (k + 1)) 64); [lia|]. destruct (Z.eqb_spec (k + 1) 0); [lia|]. reflexivity.
      * intros keys. destruct (A1 keys) as (out & S1 & A2). exists (show keys d ++ out). split; [now constructor|].
        intros pre mid acc E. rewrite E at 1. rewrite <- app_assoc. rewrite (add_index_at pre mid _ i); [|cbn; now rewrite E].
        rewrite app_assoc, <- E. specialize (A2 (done ++ 37 :: (x :: u) ++ [37]) [] (acc ++ mid ++ show keys (ti_data i))).
        rewrite EF in A2. cbn [ti_end i]. rewrite A2 by (now rewrite app_nil_r). cbn [app ti_data i]. now rewrite <- !app_assoc.
  - (* a unit *)
    assert (exists u f, Unit u /\ c :: r = u ++ f /\ (length f <= n)%nat \/ c = 92 /\ r = []) as (u & f & [(U & E & Lf)|(-> & ->)]).
    { destruct (Z.eq_dec c 92) as [->|C2].
      - destruct r as [|d r]; [exists [], []; right; auto|]. exists [92; d], r. left. split; [constructor|]. split; [reflexivity|]. cbn in L. lia.
      - exists [c], r. left. split; [now constructor|]. split; [reflexivity|]. lia. }
    2:{ apply PLAIN; [reflexivity|constructor]. }
    rewrite E. destruct (IH f Lf (done ++ u) start) as (k & l & Lk & I1 & A1).
    exists k, l. split; auto. split.
    + intros idx. rewrite (loop_units data _ u). 2:{ replace u with (u ++ []) by apply app_nil_r. constructor; [exact U|constructor]. }
      rewrite <- zlen_app, app_assoc. apply I1.
    + intros keys. destruct (A1 keys) as (out & S1 & A2). exists (u ++ out). split; [now constructor|].
      intros pre mid acc Ed. specialize (A2 pre (mid ++ u) acc). rewrite <- app_assoc in A2. rewrite A2.
      * now rewrite <- app_assoc.
      * rewrite Ed. now rewrite <- app_assoc.
Qed.

(** ** The meaning of a format is unique *)
Definition Stop (r : bytes) : Prop := r = [] \/ r = [92] \/ exists f, r = 37 :: f.
Lemma unit_cut u v r s : Unit u -> Unit v -> u ++ r = v ++ s -> u = v /\ r = s.
Proof.
  intros [c C1 C2|c] [d D1 D2|d] E; cbn in E; injection E; intros; subst; auto; try contradiction.
Qed.
Lemma unit_stop u r s : Unit u -> Stop s -> u ++ r = s -> False.
Proof.
  intros [c C1 C2|c] [->|[->|(f & ->)]] E; cbn in E; try discriminate; injection E; intros; subst; try contradiction; discriminate.
Qed.
Lemma units_cut u : Units u -> forall v r s, Units v -> Stop r -> Stop s -> u ++ r = v ++ s -> u = v /\ r = s.
Proof.
  induction 1 as [|x u X U IH]; intros v r s V R S E.
  - destruct V as [|y v Y V]; [auto|]. exfalso. cbn [app] in E. rewrite <- app_assoc in E. exact (unit_stop y _ _ Y R (eq_sym E)).
  - destruct V as [|y v Y V].
    + exfalso. cbn [app] in E. rewrite <- app_assoc in E. exact (unit_stop x _ _ X S E).
    + rewrite <- !app_assoc in E. destruct (unit_cut _ _ _ _ X Y E) as (-> & E2).
      destruct (IH v r s V R S E2) as (-> & ->). auto.
Qed.
Lemma Subst_unit_inv data sh u f out n : Unit u -> Subst data sh (u ++ f) out n ->
  exists out', out = u ++ out' /\ Subst data sh f out' n.
Proof.
  intros U Sb. remember (u ++ f) as g eqn:E. destruct Sb as [|v g out n V Sb| | | | |].
  - exfalso. eapply unit_stop; [exact U| |symmetry; exact E]. left; auto.
  - destruct (unit_cut _ _ _ _ V U E) as (-> & ->). eauto.
  - exfalso. eapply unit_stop; [exact U| |symmetry; exact E]. right; left; auto.
  - exfalso. eapply unit_stop; [exact U| |symmetry; exact E]. right; right; eauto.
  - exfalso. eapply unit_stop; [exact U| |symmetry; exact E]. right; right; eauto.
  - exfalso. eapply unit_stop; [exact U| |symmetry; exact E]. right; right; eauto.
  - exfalso. eapply unit_stop; [exact U| |symmetry; exact E]. right; right; eauto.
Qed.
Lemma Subst_percent_inv data sh f out n : Subst data sh (37 :: f) out n -> 
  (exists name d g out' n', Units name /\ f = name ++ 37 :: g /\ Names data name d /\ Subst data sh g out' n' /\ out = sh d ++ out' /\ n = n' + 1) \/
  (exists name g out', Units name /\ f = name ++ 37 :: g /\ Unknown data name /\ Subst data sh g out' n /\ out = 37 :: name ++ 37 :: out') \/
  (exists name t, Units name /\ f = name ++ t /\ (t = [] \/ t = [92]) /\ out = 37 :: f /\ n = 0).
Proof.
  intros Sb. remember (37 :: f) as g eqn:E. destruct Sb as [|v g out n V Sb| | name d g out n U Nm Sb|name g out n U Nm Sb|name U|name U]; try discriminate.
  - exfalso. eapply unit_stop; [exact V| |exact E]. right; right; eauto.
  - injection E as <-. left. exists name, d, g, out, n. auto 7.
  - injection E as <-. right; left. exists name, g, out. auto 7.
  - injection E as <-. right; right. exists name, []. rewrite app_nil_r. auto 7.
  - injection E as <-. right; right. exists name, [92]. auto 7.
Qed.
Lemma stop_pct f : Stop (37 :: f). Proof. right; right; eauto. Qed.
Lemma stop_end t : t = [] \/ t = [92] -> Stop t. Proof. intros [->| ->]; [left|right; left]; auto. Qed.
Local Hint Resolve stop_pct stop_end : core.
Lemma Subst_fun data sh f out n : Subst data sh f out n -> forall out' n', Subst data sh f out' n' -> out = out' /\ n = n'.
Proof.
  induction 1 as [|u f out n U _ IH| |name d f out n U Nm _ IH|name f out n U Nm _ IH|name U|name U]; intros out' n' S2.
  - inversion S2; subst; auto. exfalso. match goal with U : Unit ?u, E : ?u ++ _ = _ |- _ => exact (unit_stop u _ _ U (or_introl eq_refl) E) end.
  - destruct (Subst_unit_inv _ _ _ _ _ _ U S2) as (o & -> & S3). destruct (IH _ _ S3) as (-> & ->). auto.
  - inversion S2; subst; auto. exfalso. match goal with U : Unit ?u, E : ?u ++ _ = _ |- _ => exact (unit_stop u _ _ U (or_intror (or_introl eq_refl)) E) end.
  - apply Subst_percent_inv in S2. destruct S2 as [(nm & d' & g & o & m & U2 & E & N2 & S3 & -> & ->)|[(nm & g & o & U2 & E & N2 & S3 & ->)|(nm & t & U2 & E & T & -> & ->)]].
    + destruct (units_cut _ U nm _ _ U2 (stop_pct f) (stop_pct g) E) as (-> & [= ->]).
      destruct (IH _ _ S3) as (-> & ->). rewrite (Names_fun _ _ _ _ Nm N2). auto.
    + destruct (units_cut _ U nm _ _ U2 (stop_pct f) (stop_pct g) E) as (-> & [= ->]). exfalso. eapply Names_unknown; eauto.
    + destruct (units_cut _ U nm _ _ U2 (stop_pct f) (stop_end t T) E) as (-> & <-). destruct T; discriminate.
  - apply Subst_percent_inv in S2. destruct S2 as [(nm & d' & g & o & m & U2 & E & N2 & S3 & -> & ->)|[(nm & g & o & U2 & E & N2 & S3 & ->)|(nm & t & U2 & E & T & -> & ->)]].
    + destruct (units_cut _ U nm _ _ U2 (stop_pct f) (stop_pct g) E) as (-> & [= ->]). exfalso. eapply Names_unknown; eauto.
    + destruct (units_cut _ U nm _ _ U2 (stop_pct f) (stop_pct g) E) as (-> & [= ->]). destruct (IH _ _ S3) as (-> & ->). auto.
    + destruct (units_cut _ U nm _ _ U2 (stop_pct f) (stop_end t T) E) as (-> & <-). destruct T; discriminate.
  - apply Subst_percent_inv in S2. destruct S2 as [(nm & d' & g & o & m & U2 & E & N2 & S3 & -> & ->)|[(nm & g & o & U2 & E & N2 & S3 & ->)|(nm & t & U2 & E & T & -> & ->)]]; auto;
      exfalso; rewrite <- (app_nil_r name) in E; destruct (units_cut _ U nm _ _ U2 (or_introl eq_refl) (stop_pct g) E) as (_ & Q); discriminate.
  - apply Subst_percent_inv in S2. destruct S2 as [(nm & d' & g & o & m & U2 & E & N2 & S3 & -> & ->)|[(nm & g & o & U2 & E & N2 & S3 & ->)|(nm & t & U2 & E & T & -> & ->)]]; auto;
      exfalso; destruct (units_cut _ U nm _ _ U2 (or_intror (or_introl eq_refl)) (stop_pct g) E) as (_ & Q); discriminate.
Qed.

(** ** The default format *)
Lemma default_idx_spec data : forall idx, default_idx data idx =
  if zlen idx + zlen data <=? TEMPLATE_MAX_KEYS then Some (idx ++ map (fun d => {| ti_data := d; ti_start := 1; ti_end := 0 |}) data)
  else if zlen data =? 0 then Some idx else None.
Proof.
  induction data as [|d data IH]; intros idx; cbn [default_idx map].
  - change (zlen []) with 0. rewrite app_nil_r. cbn [Z.eqb]. now destruct (_ <=? _).
  - unfold add_index, TEMPLATE_MAX_KEYS in *. pose proof (zlen_nonneg data). rewrite zlen_cons. destruct (Z.ltb_spec (zlen idx) 64).
    + rewrite IH, zlen_app. change (zlen [_]) with 1.
      replace (zlen idx + 1 + zlen data) with (zlen idx + (zlen data + 1)) by lia.
      destruct (Z.leb_spec (zlen idx + (zlen data + 1)) 64); [now rewrite <- app_assoc|].
      destruct (Z.eqb_spec (zlen data) 0); [lia|]. destruct (Z.eqb_spec (zlen data + 1) 0); [lia|]. reflexivity.
    + destruct (Z.leb_spec (zlen idx + (zlen data + 1)) 64); [lia|]. destruct (Z.eqb_spec (zlen data + 1) 0); [lia|]. reflexivity.
Qed.
Lemma default_add keys : forall data d, forall acc,
  add_loop [9] (set_last (map (fun d => {| ti_data := d; ti_start := 1; ti_end := 0 |}) (d :: data))) keys 0 acc =
  Some (acc ++ [9] ++ tabbed (map (show keys) (d :: data))).
Proof.
  induction data as [|e data IH]; intros d acc.
  - cbn. unfold show, show_value. destruct keys; reflexivity.
  - change (set_last (map (fun d => {| ti_data := d; ti_start := 1; ti_end := 0 |}) (d :: e :: data)))
      with ({| ti_data := d; ti_start := 1; ti_end := 0 |} :: set_last (map (fun d => {| ti_data := d; ti_start := 1; ti_end := 0 |}) (e :: data))).
    cbn [add_loop ti_start ti_end ti_data]. change (0 <? 1) with true. cbn iota.
    change (copy_out [9] 0 (Z.to_nat (1 - 0))) with (Some [9]). cbn iota.
    rewrite IH. f_equal. change (map (show keys) (d :: e :: data)) with (show keys d :: map (show keys) (e :: data)).
    cbn [tabbed map]. rewrite <- !app_assoc. unfold show, show_value. destruct keys; reflexivity.
Qed.
