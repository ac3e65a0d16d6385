(** C116 to C118: replay protection. *)
From Verif Require Import Base BufLemmas SiseModel.
From Coq Require Import Sorted.

(** ** What is observed *)
(** timestamps of the packets of [k] that were let through *)
Definition taken (k : Z) (outs : list sout) : list Z :=
  flat_map (fun o => match o with Taken j ts _ => if j =? k then [ts] else [] | _ => [] end) outs.
(** challenge numbers that were accepted as answered, in order *)
Definition answers (outs : list sout) : list Z :=
  flat_map (fun o => match o with Taken _ _ (Some r) => [r] | _ => [] end) outs.
Definition answered_by (k : Z) (o : sout) : Prop := match o with Taken j _ (Some _) => j = k | _ => False end.
(** every number is larger than the one before, by less than [w] *)
Fixpoint climbs (w a : Z) (l : list Z) : Prop :=
  match l with [] => True | t :: l' => a < t < a + w /\ climbs w t l' end.

Lemma nfind_del j k l : nfind j (ndel k l) = if k =? j then None else nfind j l.
Proof.
  unfold ndel. induction l as [|[i n] l IH]; cbn [filter nfind fst]; [destruct (k =? j); reflexivity|].
  destruct (Z.eqb_spec i k) as [->|N]; cbn [negb nfind].
  - rewrite IH. destruct (k =? j); reflexivity.
  - rewrite IH. destruct (Z.eqb_spec i j) as [->|N2]; [|reflexivity]. destruct (Z.eqb_spec k j); [congruence|reflexivity].
Qed.
Lemma nfind_set j k n l : nfind j (nset k n l) = if k =? j then Some n else nfind j l.
Proof. unfold nset. cbn [nfind]. rewrite nfind_del. destruct (k =? j); reflexivity. Qed.
Lemma nfind_in k l n : nfind k l = Some n -> In (k, n) l.
Proof. induction l as [|[i m] l IH]; cbn; [discriminate|]. destruct (Z.eqb_spec i k) as [->|N]; [intros E; injection E as ->; auto|auto]. Qed.
Lemma u32_le x : 0 <= x -> u32 x <= x. Proof. intros H. unfold u32. apply Z.mod_le; lia. Qed.

Section P.
Context (c : sconf).

(** one step, seen from neighbor [k] *)
Lemma step_k k n o s s' out : sstep c o s = Some (s', out) -> nfind k (s_nodes s) = Some n -> o <> FireV k -> ~ answered_by k out ->
  0 <= n_last n -> 0 <= cf_window c ->
  exists n', nfind k (s_nodes s') = Some n' /\
    ((exists ts, out = Taken k ts None /\ n_last n' = ts /\ n_last n < ts < n_last n + cf_window c) \/
     (n_last n' = n_last n /\ forall ts b, out <> Taken k ts b)).
Proof.
  intros E F NV NA L W. destruct o as [j ts q r|j| |d|j|j|d]; cbn [sstep] in E.
  - injection E as E. unfold recv in E.
    destruct (Z.eq_dec j k) as [->|NE].
    + rewrite F in E.
      destruct (((n_query n >? 0) && (r =? n_query n)) || ((n_last n <? ts) && (u32 (n_last n + cf_window c) >? ts))) eqn:B.
      * injection E as <- <-. cbn [s_nodes]. rewrite nfind_set, Z.eqb_refl. eexists. split; [reflexivity|]. left. exists ts.
        destruct ((n_query n >? 0) && (r =? n_query n)) eqn:A; [cbn in NA; contradiction|]. split; [reflexivity|]. split; [reflexivity|].
        cbn in B. apply andb_true_iff in B as [B1 B2]. apply Z.ltb_lt in B1. apply Z.gtb_lt in B2.
        pose proof (u32_le (n_last n + cf_window c) ltac:(lia)). lia.
      * destruct (n_last n =? ts), (n_query n =? 0); injection E as <- <-; cbn [s_nodes]; rewrite nfind_set, Z.eqb_refl; eexists;
          (split; [reflexivity|]; right; split; [reflexivity|discriminate]).
    + destruct (match nfind j (s_nodes s) with Some n0 => (n0, ts) | None => _ end) as [m t] eqn:EM.
      assert (forall x, nfind k (nset j x (s_nodes s)) = Some n) as K by (intros x; rewrite nfind_set; destruct (Z.eqb_spec j k); [contradiction|exact F]).
      exists n. destruct (_ || _); [|destruct (n_last m =? t), (n_query m =? 0)]; injection E as <- <-; cbn [s_nodes]; rewrite K;
        (split; [reflexivity|]; right; split; [reflexivity|congruence]).
  - injection E as E. unfold send_tlvs in E. destruct (nfind j (s_nodes s)) as [m|] eqn:FJ; injection E as <- <-; cbn [s_nodes].
    + destruct (Z.eq_dec j k) as [->|NE].
      * rewrite F in FJ. injection FJ as <-. rewrite nfind_set, Z.eqb_refl. eexists. split; [reflexivity|]. right. split; [reflexivity|discriminate].
      * rewrite nfind_set. destruct (Z.eqb_spec j k); [contradiction|]. exists n. split; [exact F|]. right. split; [reflexivity|discriminate].
    + exists n. split; [exact F|]. right. split; [reflexivity|discriminate].
  - unfold send_stamp in E. injection E as <- <-. exists n. split; [exact F|]. right. split; [reflexivity|discriminate].
  - injection E as <- <-. exists n. split; [exact F|]. right. split; [reflexivity|discriminate].
  - injection E as E. unfold fire_v in E. destruct (nfind j (s_nodes s)) as [m|] eqn:FJ; [destruct (due _ s)|]; injection E as <- <-.
    2,3: exists n; split; [exact F|right; split; [reflexivity|discriminate]].
    cbn [s_nodes]. rewrite nfind_del. destruct (Z.eqb_spec j k) as [->|]; [congruence|]. exists n. split; [exact F|]. right. split; [reflexivity|discriminate].
  - injection E as E. unfold fire_t in E. destruct (nfind j (s_nodes s)) as [m|] eqn:FJ; [destruct (n_trig m) as [t|]; [destruct (due _ s)|]|]; injection E as <- <-.
    2,3,4: exists n; split; [exact F|right; split; [reflexivity|discriminate]].
    cbn [s_nodes]. rewrite nfind_set. destruct (Z.eqb_spec j k) as [->|].
    + rewrite F in FJ. injection FJ as <-. eexists. split; [reflexivity|]. right. split; [reflexivity|discriminate].
    + exists n. split; [exact F|]. right. split; [reflexivity|discriminate].
  - destruct (_ && _); [discriminate|]. injection E as <- <-. exists n. split; [exact F|]. right. split; [reflexivity|discriminate].
Qed.

(** ** C116: old packets are not accepted again *)
(** As long as a neighbor is remembered and does not answer a challenge, the
    timestamps of its accepted packets rise, each by less than the window. *)
Theorem C116_rising_partial ops : forall s s' outs k n,
  srun c ops s = Some (s', outs) -> nfind k (s_nodes s) = Some n -> ~ In (FireV k) ops -> Forall (fun o => ~ answered_by k o) outs ->
  0 <= n_last n -> 0 <= cf_window c ->
  climbs (cf_window c) (n_last n) (taken k outs).
Proof.
  induction ops as [|o ops IH]; intros s s' outs k n E F NV NA L W; cbn [srun] in E.
  - injection E as <- <-. exact Logic.I.
  - destruct (sstep c o s) as [[s1 out]|] eqn:ES; [|discriminate]. destruct (srun c ops s1) as [[s2 os]|] eqn:ER; [|discriminate]. injection E as <- <-.
    assert (o <> FireV k) as N0 by (intros ->; apply NV; left; reflexivity).
    assert (~ In (FireV k) ops) as N1 by (intros H; apply NV; right; exact H).
    destruct (step_k k n o s s1 out ES F N0 (Forall_inv NA) L W) as (n' & F' & C).
    unfold taken. cbn [flat_map]. fold (taken k os). destruct C as [(ts & -> & E1 & E2)|(E1 & E2)].
    + rewrite Z.eqb_refl. cbn [app climbs]. split; [exact E2|]. rewrite <- E1. apply (IH s1 s2 os k n' ER F' N1 (Forall_inv_tail NA)); lia.
    + assert (match out with Taken j ts _ => if j =? k then [ts] else [] | _ => [] end = []) as ->.
      { destruct out as [j ts b|?|?|?|?|]; try reflexivity. destruct (Z.eqb_spec j k) as [->|]; [|reflexivity]. exfalso. eapply E2. reflexivity. }
      cbn [app]. rewrite <- E1. apply (IH s1 s2 os k n' ER F' N1 (Forall_inv_tail NA)); lia.
Qed.
Lemma climbs_lower w a l : climbs w a l -> Forall (fun t => a < t) l.
Proof.
  revert a. induction l as [|t l IH]; intros a; cbn; [constructor|]. intros [H1 H2]. constructor; [lia|].
  eapply Forall_impl; [|exact (IH t H2)]. cbn. lia.
Qed.
Lemma climbs_nodup w a l : climbs w a l -> NoDup l.
Proof.
  revert a. induction l as [|t l IH]; intros a; cbn; [constructor|]. intros [H1 H2]. constructor; [|eauto].
  intros H. apply climbs_lower in H2. rewrite Forall_forall in H2. apply H2 in H. lia.
Qed.
(** In particular no packet is accepted twice. *)
Theorem C116_no_replay_partial ops s s' outs k n :
  srun c ops s = Some (s', outs) -> nfind k (s_nodes s) = Some n -> ~ In (FireV k) ops -> Forall (fun o => ~ answered_by k o) outs ->
  0 <= n_last n -> 0 <= cf_window c -> NoDup (taken k outs).
Proof. intros. eapply climbs_nodup, C116_rising_partial; eauto. Qed.

(** A newer packet from a remembered neighbor is accepted, if it is within the
    window and the window does not reach over 2^32. *)
Theorem C116_fresh_accepted_partial k n ts q r s : nfind k (s_nodes s) = Some n ->
  n_last n < ts < n_last n + cf_window c -> 0 <= n_last n + cf_window c < 2 ^ 32 ->
  exists b, snd (recv c k ts q r s) = Taken k ts b.
Proof.
  intros F [T1 T2] W. unfold recv. rewrite F.
  assert (u32 (n_last n + cf_window c) = n_last n + cf_window c) as EU by (unfold u32; apply Z.mod_small; lia).
  rewrite EU. destruct (Z.ltb_spec (n_last n) ts); [|lia]. destruct (Z.gtb_spec (n_last n + cf_window c) ts); [|lia].
  rewrite orb_true_r. eexists. reflexivity.
Qed.

(** ** C117: challenges *)
(** numbers [used] in answers so far, and the open challenges *)
Definition chal (used : list Z) (s : sst) : Prop :=
  NoDup used /\ 1 <= s_local s /\
  (forall k n, nfind k (s_nodes s) = Some n -> 0 <= n_query n <= s_local s /\ ~ In (n_query n) used) /\
  (forall k1 k2 n1 n2, nfind k1 (s_nodes s) = Some n1 -> nfind k2 (s_nodes s) = Some n2 -> n_query n1 = n_query n2 -> 0 < n_query n1 -> k1 = k2) /\
  Forall (fun r => 0 < r <= s_local s) used.

Lemma chal_same used s s' : chal used s -> s_local s <= s_local s' ->
  (forall k n', nfind k (s_nodes s') = Some n' -> exists n, nfind k (s_nodes s) = Some n /\ n_query n' = n_query n) -> chal used s'.
Proof.
  intros (A & A1 & B & C & D) L H. split; [exact A|]. split; [lia|]. split; [|split].
  - intros k n' F. destruct (H k n' F) as (n & F0 & E). destruct (B k n F0). rewrite E. split; [lia|auto].
  - intros k1 k2 n1 n2 F1 F2 E P. destruct (H k1 n1 F1) as (m1 & G1 & E1). destruct (H k2 n2 F2) as (m2 & G2 & E2). apply (C k1 k2 m1 m2 G1 G2); congruence || lia.
  - eapply Forall_impl; [|exact D]. cbn. lia.
Qed.

(** the node of [k] gets query [q]: none, the one it had, or a new one *)
Lemma chal_set used s k node q local now lost : chal used s -> s_local s <= local -> n_query node = q ->
  q = 0 \/ (exists n, nfind k (s_nodes s) = Some n /\ n_query n = q) \/ s_local s < q <= local ->
  chal used {| s_now := now; s_local := local; s_nodes := nset k node (s_nodes s); s_lost := lost |}.
Proof.
  intros (A & A1 & B & C & D) L EQ Q. unfold chal. cbn [s_nodes s_local].
  assert (forall j n, nfind j (s_nodes s) = Some n -> j <> k -> 0 < q -> n_query n <> q) as DIFF.
  { intros j n F NE P E. destruct Q as [->|[(m & F0 & E0)|Q]]; [lia| |].
    - apply NE. apply (C j k n m F F0); [congruence|lia].
    - destruct (B j n F). lia. }
  assert (0 <= q <= local /\ ~ In q used) as QU.
  { rewrite Forall_forall in D. destruct Q as [->|[(m & F0 & E0)|Q]].
    - split; [lia|]. intros H. apply D in H. lia.
    - destruct (B k m F0) as [B1 B2]. rewrite E0 in *. split; [lia|exact B2].
    - split; [lia|]. intros H. apply D in H. lia. }
  split; [exact A|]. split; [lia|]. split; [|split].
  - intros j n F. rewrite nfind_set in F. destruct (Z.eqb_spec k j) as [<-|NE].
    + injection F as <-. rewrite EQ. exact QU.
    + destruct (B j n F). split; [lia|auto].
  - intros k1 k2 n1 n2 F1 F2 E P. rewrite nfind_set in F1, F2.
    destruct (Z.eqb_spec k k1) as [K1|N1], (Z.eqb_spec k k2) as [K2|N2]; try congruence.
    + injection F1 as <-. exfalso. apply (DIFF k2 n2 F2); auto; [|congruence]. lia.
    + injection F2 as <-. exfalso. apply (DIFF k1 n1 F1); auto; [|congruence]. lia.
    + eapply C; eauto.
  - eapply Forall_impl; [|exact D]. cbn. lia.
Qed.

Lemma chal_step used o s s' out : chal used s -> s_local s + 1 < 2 ^ 32 -> sstep c o s = Some (s', out) ->
  chal (rev (answers [out]) ++ used) s' /\ s_local s <= s_local s' <= s_local s + 1.
Proof.
  intros CH LB E. pose proof CH as (A & A1 & B & C & D).
  assert (u32 (s_local s + 1) = s_local s + 1) as U by (unfold u32; apply Z.mod_small; lia).
  destruct o as [j ts q r|j| |d|j|j|d]; cbn [sstep] in E.
  - injection E as E. unfold recv in E. rewrite U in E.
    set (new := {| n_last := 0; n_query := 0; n_resp := 0; n_vtime := s_now s + cf_vtime c; n_trig := None |}) in E.
    destruct (match nfind j (s_nodes s) with Some n => (n, ts) | None => (new, 0) end) as [m t] eqn:EM.
    assert (n_query m = 0 \/ nfind j (s_nodes s) = Some m) as MQ.
    { destruct (nfind j (s_nodes s)) as [m0|]; injection EM as <- <-; auto. }
    destruct ((n_query m >? 0) && (r =? n_query m)) eqn:AN; cbn [orb] in E.
    + apply andb_true_iff in AN as [AN1 AN2]. apply Z.gtb_lt in AN1. apply Z.eqb_eq in AN2. subst r.
      destruct MQ as [MQ|MQ]; [lia|]. injection E as <- <-. cbn [answers flat_map app rev s_local]. split; [|lia].
      destruct (B j m MQ) as [B1 B2].
      assert (chal used {| s_now := s_now s; s_local := s_local s;
          s_nodes := nset j {| n_last := t; n_query := 0; n_resp := q; n_vtime := s_now s + cf_vtime c;
             n_trig := if (0 >? 0) || (q >? 0) then match (if q =? 0 then None else n_trig m) with Some x => Some x | None => Some (s_now s + (if q >? 0 then 1 else cf_delay c)) end
                       else if q =? 0 then None else n_trig m |} (s_nodes s); s_lost := s_lost s |}) as CH'
        by (eapply chal_set; [exact CH|lia|reflexivity|left; reflexivity]).
      destruct CH' as (P & P1 & Q & R & S0). split; [constructor; assumption|]. split; [exact P1|]. split; [|split; [exact R|constructor; [cbn [s_local]; lia|exact S0]]].
      intros i n F. destruct (Q i n F) as [Q1 Q2]. split; [exact Q1|]. intros [H|H]; [|contradiction].
      cbn [s_nodes] in F. rewrite nfind_set in F. destruct (Z.eqb_spec j i) as [->|NE].
      * injection F as <-. cbn in H. lia.
      * apply NE. apply (C j i m n MQ F H AN1).
    + assert (forall last trig' local out' q', (local = s_local s \/ local = s_local s + 1) -> answers [out'] = [] ->
        (q' = 0 \/ q' = n_query m \/ q' = s_local s + 1 /\ local = s_local s + 1) ->
        ({| s_now := s_now s; s_local := local;
            s_nodes := nset j {| n_last := last; n_query := q'; n_resp := q; n_vtime := s_now s + cf_vtime c; n_trig := trig' |} (s_nodes s); s_lost := s_lost s |}, out') = (s', out) ->
        chal (rev (answers [out]) ++ used) s' /\ s_local s <= s_local s' <= s_local s + 1) as K.
      { intros last trig' local out' q' HL HA HQ HE. injection HE as <- <-. rewrite HA. cbn [rev app s_local]. split; [|lia].
        eapply chal_set; [exact CH|lia|reflexivity|]. cbn [n_query]. destruct HQ as [->|[->|[-> ->]]]; [auto| |right; right; lia].
        destruct MQ as [->|MQ]; [auto|]. right. left. eauto. }
      destruct ((n_last m <? t) && (u32 (n_last m + cf_window c) >? t)); [|destruct (n_last m =? t); [|destruct (n_query m =? 0)]];
        (eapply K; [| | |exact E]; auto).
  - injection E as E. unfold send_tlvs in E. destruct (nfind j (s_nodes s)) as [m|] eqn:F; injection E as <- <-; cbn [answers flat_map rev app s_local].
    + split; [|lia]. eapply chal_set; [exact CH|lia|reflexivity|]. right. left. exists m. auto.
    + split; [exact CH|lia].
  - unfold send_stamp in E. injection E as <- <-. rewrite U. cbn [answers flat_map rev app s_local]. split; [|lia].
    eapply chal_same; [exact CH|cbn; lia|]. cbn [s_nodes]. eauto.
  - injection E as <- <-. cbn [answers flat_map rev app s_local]. split; [|lia]. eapply chal_same; [exact CH|cbn; lia|]. cbn [s_nodes]. eauto.
  - injection E as E. unfold fire_v in E. destruct (nfind j (s_nodes s)) as [m|] eqn:F; [destruct (due _ s)|]; injection E as <- <-; cbn [answers flat_map rev app s_local].
    2,3: split; [exact CH|lia].
    split; [|lia]. eapply chal_same; [exact CH|cbn; lia|]. cbn [s_nodes]. intros i n G. rewrite nfind_del in G. destruct (j =? i); [discriminate|eauto].
  - injection E as E. unfold fire_t in E. destruct (nfind j (s_nodes s)) as [m|] eqn:F; [destruct (n_trig m) as [t|]; [destruct (due _ s)|]|]; injection E as <- <-; cbn [answers flat_map rev app s_local].
    2,3,4: split; [exact CH|lia].
    split; [|lia]. eapply chal_set; [exact CH|lia|reflexivity|]. right. left. exists m. auto.
  - destruct (_ && _); [discriminate|]. injection E as <- <-. cbn [answers flat_map rev app]. split; [exact CH|lia].
Qed.

Lemma chal_run ops : forall used s s' outs, chal used s -> s_local s + zlen ops < 2 ^ 32 -> srun c ops s = Some (s', outs) ->
  chal (rev (answers outs) ++ used) s'.
Proof.
  induction ops as [|o ops IH]; intros used s s' outs CH LB E; cbn [srun] in E.
  - injection E as <- <-. exact CH.
  - destruct (sstep c o s) as [[s1 out]|] eqn:ES; [|discriminate]. destruct (srun c ops s1) as [[s2 os]|] eqn:ER; [|discriminate]. injection E as <- <-.
    rewrite zlen_cons in LB. pose proof (zlen_nonneg ops).
    destruct (chal_step used o s s1 out CH ltac:(lia) ES) as [C1 C2].
    pose proof (IH _ s1 s2 os C1 ltac:(lia) ER) as C3.
    replace (rev (answers (out :: os)) ++ used) with (rev (answers os) ++ rev (answers [out]) ++ used); [exact C3|].
    unfold answers. cbn [flat_map]. rewrite app_nil_r, rev_app_distr, <- app_assoc. reflexivity.
Qed.

(** Every challenge is accepted as answered at most once, by one neighbor:
    recording the answer is of no use.  (For less than 2^32 packets.) *)
Theorem C117_answered_once_partial ops s' outs : srun c ops sst0 = Some (s', outs) -> zlen ops + 1 < 2 ^ 32 -> NoDup (answers outs).
Proof.
  intros E L.
  assert (chal [] sst0) as C0.
  { split; [constructor|]. split; [cbn; lia|]. split; [discriminate|]. split; [discriminate|constructor]. }
  destruct (chal_run ops [] sst0 s' outs C0 ltac:(cbn; lia) E) as (N & _). rewrite app_nil_r in N.
  apply NoDup_rev in N. now rewrite rev_involutive in N.
Qed.

(** timestamps of the packets a router sends *)
Definition stamps (outs : list sout) : list Z := flat_map (fun o => match o with Stamp t => [t] | _ => [] end) outs.
Lemma local_step o s s' out : 0 <= s_local s -> s_local s + 1 < 2 ^ 32 -> sstep c o s = Some (s', out) ->
  s_local s <= s_local s' <= s_local s + 1 /\ (stamps [out] = [] \/ stamps [out] = [s_local s'] /\ s_local s' = s_local s + 1) /\ (o = SendStamp -> stamps [out] <> []).
Proof.
  intros L0 LB E. assert (U : u32 (s_local s + 1) = s_local s + 1) by (apply u32_id; unfold is_u32; lia).
  destruct o as [j ts q r|j| |d|j|j|d]; cbn [sstep] in E.
  - injection E as E. unfold recv in E. rewrite U in E. destruct (match nfind j (s_nodes s) with Some n => (n, ts) | None => _ end) as [m t].
    destruct (_ || _) in E; [|destruct (n_last m =? t), (n_query m =? 0) in E]; injection E as <- <-; cbn [s_local stamps flat_map app]; (split; [lia|]); (split; [auto|discriminate]).
  - injection E as E. unfold send_tlvs in E. destruct (nfind j (s_nodes s)); injection E as <- <-; cbn [s_local stamps flat_map app]; (split; [lia|]); (split; [auto|discriminate]).
  - unfold send_stamp in E. injection E as <- <-. rewrite U. cbn [s_local stamps flat_map app]. split; [lia|]. split; [auto|discriminate].
  - injection E as <- <-. cbn [s_local stamps flat_map app]. split; [lia|]. split; [auto|discriminate].
  - injection E as E. unfold fire_v in E. destruct (nfind j (s_nodes s)); [destruct (due _ s)|]; injection E as <- <-; cbn [s_local stamps flat_map app]; (split; [lia|]); (split; [auto|discriminate]).
  - injection E as E. unfold fire_t in E. destruct (nfind j (s_nodes s)) as [m|]; [destruct (n_trig m); [destruct (due _ s)|]|]; injection E as <- <-; cbn [s_local stamps flat_map app]; (split; [lia|]); (split; [auto|discriminate]).
  - destruct (_ && _); [discriminate|]. injection E as <- <-. cbn [stamps flat_map app]. split; [lia|]. split; [auto|discriminate].
Qed.
Lemma local_run ops : forall s s' outs, 0 <= s_local s -> s_local s + zlen ops < 2 ^ 32 -> srun c ops s = Some (s', outs) ->
  s_local s <= s_local s' /\ Forall (fun t => s_local s < t <= s_local s') (stamps outs) /\ StronglySorted Z.lt (stamps outs).
Proof.
  induction ops as [|o ops IH]; intros s s' outs L0 LB E; cbn [srun] in E.
  - injection E as <- <-. split; [lia|]. split; constructor.
  - destruct (sstep c o s) as [[s1 out]|] eqn:ES; [|discriminate]. destruct (srun c ops s1) as [[s2 os]|] eqn:ER; [|discriminate]. injection E as <- <-.
    rewrite zlen_cons in LB. pose proof (zlen_nonneg ops). destruct (local_step o s s1 out L0 ltac:(lia) ES) as (L1 & SO & _).
    destruct (IH s1 s2 os ltac:(lia) ltac:(lia) ER) as (L2 & FA & SS).
    replace (stamps (out :: os)) with (stamps [out] ++ stamps os) by (unfold stamps; cbn [flat_map]; rewrite app_nil_r; reflexivity).
    split; [lia|]. destruct SO as [->|(-> & LE)]; cbn [app].
    + split; [|exact SS]. eapply Forall_impl; [|exact FA]. cbn. intros; lia.
    + split.
      * constructor; [lia|]. eapply Forall_impl; [|exact FA]. cbn. intros; lia.
      * constructor; [exact SS|]. eapply Forall_impl; [|exact FA]. cbn. intros; lia.
Qed.
(** Every packet a router sends carries a higher timestamp than all before, also when
    challenges take numbers in between.  (For less than 2^32 packets; the full claim
    is refuted below.) *)
Theorem C116_own_stamps_partial ops s' outs : srun c ops sst0 = Some (s', outs) -> zlen ops + 1 < 2 ^ 32 -> StronglySorted Z.lt (stamps outs) /\ Forall (fun t => 1 < t) (stamps outs).
Proof.
  intros E L. destruct (local_run ops sst0 s' outs ltac:(cbn; lia) ltac:(cbn [s_local sst0]; lia) E) as (_ & FA & SS). split; [exact SS|].
  eapply Forall_impl; [|exact FA]. cbn [s_local sst0]. intros; lia.
Qed.

(** A challenge that was sent and answered lets the packet through, whatever
    its timestamp: [a] challenges [kb], the packet arrives at [b] (with whatever
    outcome), the next packet of [b] carries the answer. *)
Theorem C117_handshake_partial cb ka kb a b na ts r ts' q' :
  nfind kb (s_nodes a) = Some na -> 0 < n_query na ->
  exists a1 resp b1 o b2 q2,
    send_tlvs kb a = (a1, Tlvs kb (n_query na) resp) /\
    recv cb ka ts (n_query na) r b = (b1, o) /\
    send_tlvs ka b1 = (b2, Tlvs ka q2 (n_query na)) /\
    exists a2, recv c kb ts' q' (n_query na) a1 = (a2, Taken kb ts' (Some (n_query na))).
Proof.
  intros F P. unfold send_tlvs at 1. rewrite F. eexists. eexists.
  destruct (recv cb ka ts (n_query na) r b) as [b1 o] eqn:EB.
  assert (exists nb, nfind ka (s_nodes b1) = Some nb /\ n_resp nb = n_query na) as (nb & FB & RB).
  { unfold recv in EB. destruct (match nfind ka (s_nodes b) with Some n => (n, ts) | None => _ end) as [m t].
    destruct (_ || _) in EB; [|destruct (n_last m =? t), (n_query m =? 0) in EB]; injection EB as <- <-; cbn [s_nodes]; rewrite nfind_set, Z.eqb_refl; eexists; split; reflexivity. }
  exists b1, o. eexists. eexists. split; [reflexivity|]. split; [reflexivity|]. split; [unfold send_tlvs; rewrite FB, RB; reflexivity|].
  assert (exists a2, recv c kb ts' q' (n_query na)
    {| s_now := s_now a; s_local := s_local a;
       s_nodes := nset kb {| n_last := n_last na; n_query := n_query na; n_resp := 0; n_vtime := n_vtime na; n_trig := n_trig na |} (s_nodes a);
       s_lost := s_lost a |} = (a2, Taken kb ts' (Some (n_query na)))) as [a2 E2].
  { unfold recv. cbn [s_nodes]. rewrite nfind_set, Z.eqb_refl. cbn [n_query]. destruct (Z.gtb_spec (n_query na) 0); [|lia]. rewrite Z.eqb_refl. cbn [andb orb].
    eexists. reflexivity. }
  exists a2. exact E2.
Qed.

(** ** C118: timers *)
Definition timely (s : sst) : Prop :=
  s_lost s = [] /\ forall k n t, In (k, n) (s_nodes s) -> n_trig n = Some t -> t < n_vtime n /\ t <= s_now s + Z.max 1 (cf_delay c).

Lemma in_set k n l e : In e (nset k n l) -> e = (k, n) \/ In e l.
Proof. unfold nset, ndel. intros [<-|H]; [auto|]. apply filter_In in H. tauto. Qed.

Lemma timely_step o s : cf_delay c < cf_vtime c -> 1 < cf_vtime c -> timely s -> exists s' out, sstep c o s = Some (s', out) /\ timely s'.
Proof.
  intros DV V1 [L T]. destruct o as [j ts q r|j| |d|j|j|d]; cbn [sstep].
  - destruct (recv c j ts q r s) as [s' out] eqn:E. exists s', out. split; [reflexivity|]. unfold recv in E.
    destruct (match nfind j (s_nodes s) with Some n => (n, ts) | None => _ end) as [m t] eqn:EM.
    assert (forall x, n_trig m = Some x -> x <= s_now s + Z.max 1 (cf_delay c)) as TM.
    { intros x Ex. destruct (nfind j (s_nodes s)) as [m0|] eqn:FM; injection EM as <- <-; [|discriminate]. apply nfind_in in FM. destruct (T _ _ _ FM Ex). lia. }
    assert (forall last q' local trig0 out', (trig0 = None \/ trig0 = n_trig m) ->
       ({| s_now := s_now s; s_local := local;
           s_nodes := nset j {| n_last := last; n_query := q'; n_resp := q; n_vtime := s_now s + cf_vtime c;
              n_trig := if (q' >? 0) || (q >? 0) then match trig0 with Some x => Some x | None => Some (s_now s + (if q >? 0 then 1 else cf_delay c)) end else trig0 |} (s_nodes s);
           s_lost := s_lost s |}, out') = (s', out) -> timely s') as K.
    { intros last q' local trig0 out' H0 HE. injection HE as <- <-. split; [exact L|]. cbn [s_nodes s_now]. intros k n x I0 X. apply in_set in I0 as [I0|I0].
      - injection I0 as -> ->. cbn [n_trig n_vtime] in *.
        assert (x <= s_now s + Z.max 1 (cf_delay c)); [|lia].
        assert (forall y, trig0 = Some y -> y <= s_now s + Z.max 1 (cf_delay c)) as T0 by (intros y Y; destruct H0 as [->| ->]; [discriminate|auto]).
        destruct ((q' >? 0) || (q >? 0)) in X; [|auto]. destruct trig0 as [y|]; [apply T0; congruence|]. assert (x = s_now s + (if q >? 0 then 1 else cf_delay c)) as -> by congruence. destruct (q >? 0); lia.
      - exact (T k n x I0 X). }
    destruct (_ || _) in E; [|destruct (n_last m =? t), (n_query m =? 0) in E]; (eapply K; [|exact E]); auto.
    destruct (q =? 0); auto.
  - unfold send_tlvs. destruct (nfind j (s_nodes s)) as [m|] eqn:F; eexists; eexists; (split; [reflexivity|]); [|split; assumption].
    split; [exact L|]. cbn [s_nodes s_now]. intros k n x I0 X. apply in_set in I0 as [I0|I0]; [|exact (T k n x I0 X)].
    injection I0 as -> ->. cbn [n_trig n_vtime] in *. apply nfind_in in F. exact (T _ _ _ F X).
  - eexists; eexists; split; [reflexivity|]. split; assumption.
  - eexists; eexists; split; [reflexivity|]. split; [exact L|]. cbn [s_nodes s_now]. intros k n x I0 X. destruct (T k n x I0 X). lia.
  - unfold fire_v. destruct (nfind j (s_nodes s)) as [m|] eqn:F; [destruct (due (n_vtime m) s) eqn:DU|]; eexists; eexists; (split; [reflexivity|]); try (split; assumption).
    apply nfind_in in F. destruct (n_trig m) as [t|] eqn:TM.
    + exfalso. destruct (T _ _ _ F TM) as [T1 _]. unfold due in DU. apply andb_true_iff in DU as [_ DU]. rewrite forallb_forall in DU.
      assert (n_vtime m <=? t = true) as Q; [|apply Z.leb_le in Q; lia]. apply DU. unfold deadlines. apply in_or_app. left. apply in_flat_map. exists (j, m). split; [exact F|].
      cbn [snd]. rewrite TM. right. left. reflexivity.
    + split; [exact L|]. cbn [s_nodes s_now]. intros k n x I0 X. unfold ndel in I0. apply filter_In in I0 as [I0 _]. exact (T k n x I0 X).
  - unfold fire_t. destruct (nfind j (s_nodes s)) as [m|] eqn:F; [destruct (n_trig m) as [t|] eqn:TM; [destruct (due t s)|]|]; eexists; eexists; (split; [reflexivity|]); try (split; assumption).
    split; [exact L|]. cbn [s_nodes s_now]. intros k n x I0 X. apply in_set in I0 as [I0|I0]; [|exact (T k n x I0 X)]. injection I0 as -> ->. discriminate.
  - rewrite L. cbn [existsb andb]. eexists; eexists; split; [reflexivity|]. split; assumption.
Qed.

(** If the trigger delay is shorter than the validity time, no history lets a
    timer run on a node that was freed. *)
Theorem C118_no_use_after_free_partial ops : cf_delay c < cf_vtime c -> 1 < cf_vtime c -> srun c ops sst0 <> None.
Proof.
  intros DV V1. assert (timely sst0) as T by (split; [reflexivity|intros k n t []]). revert T. generalize sst0.
  induction ops as [|o ops IH]; intros s T; cbn [srun]; [discriminate|].
  destruct (timely_step o s DV V1 T) as (s' & out & E & T'). rewrite E. specialize (IH s' T'). destruct (srun c ops s') as [[s2 os]|]; [discriminate|contradiction].
Qed.
End P.

Definition conf : sconf := {| cf_vtime := 60000; cf_delay := 10000; cf_window := 100 |}.
Fixpoint count_taken (k ts : Z) (outs : list sout) : Z :=
  match outs with
  | [] => 0
  | Taken j t _ :: l => (if (j =? k) && (t =? ts) then 1 else 0) + count_taken k ts l
  | _ :: l => count_taken k ts l
  end.

Example C116_ex : exists s s' outs n, srun conf [Recv 7 3 0 0] sst0 = Some (s, [Dropped 7 0]) /\ nfind 7 (s_nodes s) = Some n /\
  srun conf [Recv 7 4 0 0; Recv 7 6 0 0; Recv 7 6 0 0; Recv 7 5 0 0; Recv 7 50 0 0; Recv 7 500 0 0] s = Some (s', outs) /\
  taken 7 outs = [4; 6; 50] /\ Forall (fun o => ~ answered_by 7 o) outs.
Proof.
  eexists. eexists. eexists. eexists. split; [vm_compute; reflexivity|]. split; [vm_compute; reflexivity|]. split; [vm_compute; reflexivity|].
  split; [vm_compute; reflexivity|]. repeat constructor; cbn; auto.
Qed.
Example C117_ex : exists s outs, srun conf [Recv 7 3 0 0; Recv 7 3000 0 0; Recv 7 3001 0 2; Recv 7 3001 0 2] sst0 = Some (s, outs) /\
  outs = [Dropped 7 0; Dropped 7 3000; Taken 7 3001 (Some 2); Dropped 7 3001] /\ answers outs = [2].
Proof. eexists. eexists. split; [vm_compute; reflexivity|]. split; reflexivity. Qed.
Example C118_ex : cf_delay conf < cf_vtime conf /\ 1 < cf_vtime conf. Proof. cbn. lia. Qed.

(** False of the code: a new neighbor is not challenged; its second packet is
    accepted if the timestamp is below the window.  So after the neighbor was
    forgotten its first packets can be sent again. *)
Theorem C116_forgotten_refuted : exists ops s outs k ts, srun conf ops sst0 = Some (s, outs) /\ answers outs = [] /\
  ts <> 0 /\ 2 <= count_taken k ts outs.
Proof.
  exists [Recv 7 4 0 0; Recv 7 5 0 0; Wait 60000; FireV 7; Recv 7 5 0 0; Recv 7 5 0 0].
  eexists. eexists. exists 7, 5. split; [vm_compute; reflexivity|]. split; [reflexivity|]. split; [lia|vm_compute; discriminate].
Qed.
(** False of the code: when a rebooted neighbor has answered a challenge with a
    small timestamp, the packets from before the reboot are accepted again. *)
Theorem C116_reboot_refuted : exists ops s outs k ts, srun conf ops sst0 = Some (s, outs) /\ ~ In (FireV k) ops /\ 2 <= count_taken k ts outs.
Proof.
  exists [Recv 7 4 0 0; Recv 7 50 0 0; Recv 7 70 0 0; (* reboot *) Recv 7 3 0 0; Recv 7 4 0 2; (* replay *) Recv 7 50 0 0; Recv 7 70 0 0].
  eexists. eexists. exists 7, 50. split; [vm_compute; reflexivity|]. split; [|vm_compute; discriminate].
  cbn. intuition discriminate.
Qed.
(** False of the code: after 2^32 packets the own timestamps start again. *)
Lemma stamp_run c n : forall s, exists s' outs, srun c (repeat SendStamp n) s = Some (s', outs) /\ (0 <= s_local s < 2 ^ 32 -> s_local s' = u32 (s_local s + Z.of_nat n)).
Proof.
  induction n as [|n IH]; intro s; cbn [repeat srun sstep send_stamp].
  - do 2 eexists. split; [reflexivity|]. intro R. rewrite u32_id; [lia|unfold is_u32; lia].
  - destruct (IH {| s_now := s_now s; s_local := u32 (s_local s + 1); s_nodes := s_nodes s; s_lost := s_lost s |}) as (s' & outs & E & L). unfold send_stamp. rewrite E. do 2 eexists. split; [reflexivity|].
    intro R. rewrite L by (cbn [s_local]; apply u32_range). cbn [s_local]. unfold u32. rewrite Zplus_mod_idemp_l. f_equal. lia.
Qed.
Lemma srun_app c a b : forall s s1 o1 s2 o2, srun c a s = Some (s1, o1) -> srun c b s1 = Some (s2, o2) -> srun c (a ++ b) s = Some (s2, o1 ++ o2).
Proof.
  induction a as [|o a IH]; intros s s1 o1 s2 o2 A B; cbn [srun app] in *; [injection A as <- <-; exact B|].
  destruct (sstep c o s) as [[s0 out]|]; [|discriminate]. destruct (srun c a s0) as [[s3 os]|] eqn:R; [|discriminate]. injection A as <- <-. rewrite (IH _ _ _ _ _ R B). reflexivity.
Qed.
Theorem C116_own_stamps_refuted : exists ops s outs, srun conf ops sst0 = Some (s, outs) /\ ~ StronglySorted Z.lt (stamps outs).
Proof.
  destruct (srun conf [SendStamp] sst0) as [[s1 o1]|] eqn:E1; [|discriminate]. vm_compute in E1. injection E1 as <- <-.
  set (s1 := {| s_now := 0; s_local := 2; s_nodes := []; s_lost := [] |}).
  assert (N : exists n, Z.of_nat n = 2 ^ 32 - 3) by (exists (Z.to_nat (2 ^ 32 - 3)); apply Z2Nat.id; lia). destruct N as [n N].
  destruct (stamp_run conf n s1) as (s2 & o2 & E2 & L2). rewrite N in L2. specialize (L2 ltac:(cbn; lia)). cbn [s_local s1] in L2.
  assert (L2' : s_local s2 = 4294967295) by (rewrite L2; reflexivity).
  set (s3 := {| s_now := s_now s2; s_local := 0; s_nodes := s_nodes s2; s_lost := s_lost s2 |}).
  assert (E3 : srun conf [SendStamp] s2 = Some (s3, [Stamp 0])) by (cbn [srun sstep]; unfold send_stamp; rewrite L2'; reflexivity).
  exists (SendStamp :: (repeat SendStamp n ++ [SendStamp])), s3, (Stamp 2 :: (o2 ++ [Stamp 0])). split.
  - cbn [srun sstep]. change (send_stamp sst0) with (s1, Stamp 2). cbv iota beta. rewrite (srun_app _ _ _ _ _ _ _ _ E2 E3). reflexivity.
  - intro K. unfold stamps in K. cbn [flat_map app] in K. rewrite flat_map_app in K. apply StronglySorted_inv in K. destruct K as [_ K]. rewrite Forall_app in K. destruct K as [_ K].
    apply Forall_inv in K. lia.
Qed.
(** False of the code: near 2^32 the window wraps, newer packets are refused. *)
Theorem C116_wrap_refuted : exists k n ts s, nfind k (s_nodes s) = Some n /\ is_u32 ts /\ n_last n < ts < n_last n + cf_window conf /\
  snd (recv conf k ts 0 0 s) = Dropped k ts.
Proof.
  exists 7, {| n_last := 4294967200; n_query := 0; n_resp := 0; n_vtime := 60000; n_trig := None |}, 4294967201.
  exists {| s_now := 0; s_local := 1; s_nodes := [(7, {| n_last := 4294967200; n_query := 0; n_resp := 0; n_vtime := 60000; n_trig := None |})]; s_lost := [] |}.
  split; [reflexivity|]. split; [unfold is_u32; lia|]. split; [cbn; lia|vm_compute; reflexivity].
Qed.
(** False of the code: a challenge that was received is not answered if another
    packet comes before the answer is sent. *)
Theorem C117_answer_lost_refuted : exists ops s outs k q, In (Recv k 5 q 0) ops /\ 0 < q /\ srun conf (ops ++ [FireT k; SendTlvs k]) sst0 = Some (s, outs) /\
  (exists pre, outs = pre ++ [Flush k; Tlvs k 0 0]) /\ forall o j a, In o outs -> o <> Tlvs j a q.
Proof.
  exists [Recv 7 4 0 0; Recv 7 5 33 0; Recv 7 6 0 0; Recv 7 7 34 0; Recv 7 7 0 0; Wait 1]. eexists. eexists. exists 7, 33.
  split; [cbn; auto|]. split; [lia|]. split; [vm_compute; reflexivity|].
  split; [eexists [_; _; _; _; _; _]; reflexivity|]. intros o j a H. cbn in H. intuition (subst; discriminate).
Qed.
(** False of the code: with a trigger delay longer than the validity time the
    trigger of a freed node fires. *)
Theorem C118_trigger_refuted : exists c ops, 60000 <= cf_vtime c /\ 1000 <= cf_delay c /\ srun c ops sst0 = None.
Proof.
  exists {| cf_vtime := 60000; cf_delay := 60001; cf_window := 100 |}, [Recv 7 4 0 0; Recv 7 5000 0 0; Wait 60000; FireV 7; Wait 1; FireLost 60001].
  split; [cbn; lia|]. split; [cbn; lia|]. vm_compute. reflexivity.
Qed.

Print Assumptions C116_own_stamps_partial.
Print Assumptions C116_own_stamps_refuted.
Print Assumptions C116_rising_partial.
Print Assumptions C116_no_replay_partial.
Print Assumptions C116_fresh_accepted_partial.
Print Assumptions C116_forgotten_refuted.
Print Assumptions C116_reboot_refuted.
Print Assumptions C116_wrap_refuted.
Print Assumptions C117_answered_once_partial.
Print Assumptions C117_handshake_partial.
Print Assumptions C117_answer_lost_refuted.
Print Assumptions C118_no_use_after_free_partial.
Print Assumptions C118_trigger_refuted.
