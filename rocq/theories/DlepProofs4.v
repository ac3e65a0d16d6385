(** Proofs about the DLEP writer and the texts of the reader. *)
From Verif Require Import Base BufLemmas SplitLemmas DlepModel DlepSpec DlepProofs DlepProofs2 DlepProofs3.

(** ** Writer *)
Lemma add_tlv_ok out ty v : is_u16 ty -> is_u16 (zlen v) -> add_tlv out ty v (zlen v) = Some (out ++ wire_tlv (ty, v)).
Proof.
  intros A B. unfold add_tlv. rewrite (u16_id (zlen v)) by auto. destruct (Z.ltb_spec (zlen v) (zlen v)); [lia|].
  rewrite !be16_n16 by auto. unfold wire_tlv. cbn [fst snd]. unfold zlen at 2. rewrite Nat2Z.id, firstn_all. reflexivity.
Qed.
Lemma write_all_ok : forall l out, Forall wf_tlv l -> write_all out l = Some (out ++ wire l).
Proof.
  induction l as [|[ty v] l IH]; intros out W; [cbn; now rewrite app_nil_r|]. pose proof (Forall_inv W) as (A & B & _). cbn [write_all fst snd] in *. rewrite (add_tlv_ok out ty v A B).
  rewrite IH by exact (Forall_inv_tail W). now rewrite wire_cons, app_assoc.
Qed.
Lemma finish_ok out ty l : is_u16 ty -> zlen (wire l) <= 65535 -> finish_signal (fst (start_signal out ty) ++ wire l) (snd (start_signal out ty)) = Some (0, out ++ wire_signal ty l).
Proof.
  intros U L. unfold start_signal, finish_signal. cbn [fst snd]. rewrite be16_n16 by auto. pose proof (zlen_nonneg (wire l)).
  rewrite !zlen_app. change (zlen (n16 ty)) with 2. change (zlen [0; 0]) with 2. destruct (Z.ltb_spec 65539 (zlen out + (2 + 2) + zlen (wire l) - zlen out)); [lia|].
  replace (zlen out + (2 + 2) + zlen (wire l) - zlen out - 4) with (zlen (wire l)) by lia.
  unfold put16. rewrite be16_n16 by (unfold is_u16; lia). cbn [n16].
  rewrite <- !app_assoc. unfold n16. cbn [app].
  replace (out ++ ty / 256 :: ty mod 256 :: 0 :: 0 :: wire l) with ((out ++ [ty / 256; ty mod 256]) ++ 0 :: 0 :: wire l) by (rewrite <- app_assoc; reflexivity).
  rewrite (zset_split (out ++ [ty / 256; ty mod 256])); [|rewrite zlen_app, !zlen_cons, zlen_nil; lia].
  replace ((out ++ [ty / 256; ty mod 256]) ++ zlen (wire l) / 256 :: 0 :: wire l) with ((out ++ [ty / 256; ty mod 256; zlen (wire l) / 256]) ++ 0 :: wire l) by (rewrite <- !app_assoc; reflexivity).
  rewrite (zset_split (out ++ [ty / 256; ty mod 256; zlen (wire l) / 256])); [|rewrite zlen_app, !zlen_cons, zlen_nil; lia].
  rewrite <- !app_assoc. reflexivity.
Qed.
Lemma finish_long out ty l : 65535 < zlen (wire l) -> finish_signal (fst (start_signal out ty) ++ wire l) (snd (start_signal out ty)) = Some (-1, fst (start_signal out ty) ++ wire l).
Proof.
  intros L. unfold start_signal, finish_signal. cbn [fst snd]. unfold be16. rewrite !zlen_app, !zlen_cons, zlen_nil.
  destruct (Z.ltb_spec 65539 (zlen out + (0 + 1 + 1 + (0 + 1 + 1)) + zlen (wire l) - zlen out)); [auto|lia].
Qed.

(** ** Numbers *)
Definition join (l : bytes) (acc : Z) : Z := fold_left (fun a x => a * 256 + x) l acc.
Lemma get_be_join : forall l pre post i acc, i = zlen pre -> get_be (pre ++ l ++ post) i (length l) acc = Some (join l acc).
Proof.
  induction l as [|x l IH]; intros pre post i acc ->; [reflexivity|]. cbn [length get_be app]. rewrite (zget_split pre) by auto.
  replace (pre ++ x :: l ++ post) with ((pre ++ [x]) ++ l ++ post) by (rewrite <- app_assoc; reflexivity). rewrite IH; [reflexivity|]. rewrite zlen_app, zlen_cons, zlen_nil. lia.
Qed.
Lemma be_len n z : length (be_bytes n z) = n.
Proof. revert z. induction n as [|n IH]; intros z; cbn; auto. rewrite app_length, IH. cbn. lia. Qed.
Lemma join_be n : forall z acc, join (be_bytes n z) acc = acc * 256 ^ Z.of_nat n + z mod 256 ^ Z.of_nat n.
Proof.
  induction n as [|n IH]; intros z acc; [cbn; rewrite Z.mod_1_r; lia|]. cbn [be_bytes]. unfold join in *. rewrite fold_left_app, IH. cbn [fold_left].
  replace (Z.of_nat (S n)) with (1 + Z.of_nat n) by lia. rewrite Z.pow_add_r, Z.pow_1_r by lia.
  assert (0 < 256 ^ Z.of_nat n) by (apply Z.pow_pos_nonneg; lia). rewrite Z.rem_mul_r by lia. ring.
Qed.
Lemma get_be_ok n z post : 0 <= z < 256 ^ Z.of_nat n -> get_be (be_bytes n z ++ post) 0 n 0 = Some z.
Proof.
  intros H. pose proof (get_be_join (be_bytes n z) [] post 0 0 eq_refl) as G. rewrite be_len in G. cbn [app] in G. rewrite G, join_be, Z.mod_small by auto. reflexivity.
Qed.
Lemma be32_bytes n : be32 n = be_bytes 4 (u32 n).
Proof.
  unfold be32. cbn [be_bytes app]. assert (0 <= u32 n < 4294967296) as B by (unfold u32; apply Z.mod_pos_bound; lia). revert B. generalize (u32 n). intros m B.
  rewrite !Z.div_div by lia. change (256 * 256) with 65536. change (65536 * 256) with 16777216. f_equal. symmetry. apply Z.mod_small. split; [apply Z.div_pos; lia|apply Z.div_lt_upper_bound; lia].
Qed.
Lemma be16_bytes n : be16 n = be_bytes 2 (u16 n).
Proof.
  unfold be16. cbn [be_bytes app]. assert (0 <= u16 n < 65536) as B by (unfold u16; apply Z.mod_pos_bound; lia). f_equal. symmetry. apply Z.mod_small. split; [apply Z.div_pos; lia|apply Z.div_lt_upper_bound; lia].
Qed.

Lemma small_u16 n : 0 <= n <= 100 -> is_u16 n.
Proof. unfold is_u16. lia. Qed.
Ltac su := first [assumption | apply small_u16; vm_compute; split; discriminate].
Lemma heartbeat_ok out n post : 0 <= n < 4294967296 -> exists v, add_heartbeat out n = Some (out ++ wire_tlv (5, v)) /\ wf_tlv (5, v) /\ zlen v = 4 /\ read_heartbeat (v ++ post) = Some n.
Proof.
  intros H. exists (be32 n). unfold add_heartbeat. change 4 with (zlen (be32 n)) at 1. rewrite add_tlv_ok by su. split; auto. split.
  - split; [cbn [fst snd]; su|]. split; [cbn [fst snd]; su|]. cbn [snd]. unfold be32. rewrite (u32_id n) by auto. apply Forall_cons; [split; [apply Z.div_pos; lia|apply Z.div_lt_upper_bound; lia]|]. repeat (apply Forall_cons; [apply Z.mod_pos_bound; lia|]). apply Forall_nil.
  - split; auto. unfold read_heartbeat. rewrite be32_bytes, (u32_id n) by auto. apply get_be_ok. cbn. lia.
Qed.
Lemma be_all n z : all_bytes (be_bytes n z).
Proof. revert z. induction n as [|n IH]; intros z; [constructor|]. cbn. apply Forall_app. split; [apply IH|]. apply Forall_cons; [apply Z.mod_pos_bound; lia|apply Forall_nil]. Qed.
Lemma uint64_ok out ty n post : is_u16 ty -> 0 <= n < 18446744073709551616 -> exists v, add_uint64 out n ty = Some (out ++ wire_tlv (ty, v)) /\ wf_tlv (ty, v) /\ zlen v = 8 /\ read_uint64 (v ++ post) = Some n.
Proof.
  intros U H. exists (be_bytes 8 n). unfold add_uint64. rewrite (u64_id n) by auto. change 8 with (zlen (be_bytes 8 n)) at 2. rewrite add_tlv_ok by su. split; auto. split.
  - split; auto. split; [cbn [fst snd]; su|]. apply be_all.
  - split; auto. apply get_be_ok. cbn. lia.
Qed.
Lemma int64_value out ty n post : is_u16 ty -> exists v, add_int64 out n ty = Some (out ++ wire_tlv (ty, v)) /\ read_int64 (v ++ post) = Some (s64 (u32 n * 4294967296)).
Proof.
  intros U. exists (be32 n ++ [0; 0; 0; 0]). unfold add_int64. change 8 with (zlen (be32 n ++ [0; 0; 0; 0])) at 1. rewrite add_tlv_ok by su. split; auto.
  unfold read_int64. rewrite <- app_assoc. change ([0; 0; 0; 0] ++ post) with (be_bytes 4 0 ++ post). rewrite be32_bytes.
  pose proof (get_be_join (be_bytes 4 (u32 n) ++ be_bytes 4 0) [] post 0 0 eq_refl) as G. rewrite app_length, !be_len in G. cbn [app] in G. rewrite <- app_assoc in G. change (4 + 4)%nat with 8%nat in G. rewrite G.
  unfold join. rewrite fold_left_app. fold (join (be_bytes 4 (u32 n)) 0). rewrite join_be. fold (join (be_bytes 4 0) (0 * 256 ^ Z.of_nat 4 + u32 n mod 256 ^ Z.of_nat 4)). rewrite join_be.
  change (256 ^ Z.of_nat 4) with 4294967296. rewrite Z.mod_0_l by lia. rewrite (Z.mod_small (u32 n)) by (unfold u32; apply Z.mod_pos_bound; lia). f_equal. f_equal. lia.
Qed.
Lemma int64_wrong n : -9223372036854775808 <= n < 9223372036854775808 -> n <> 0 -> s64 (u32 n * 4294967296) <> n.
Proof. intros B N E. unfold s64, u64, u32 in E. revert E. zdm; destruct (_ <? _) eqn:Q; intros; zdm; lia. Qed.
Lemma lid_length_ok out n post : is_u16 n -> exists v, add_lid_length out n = Some (out ++ wire_tlv (22, v)) /\ wf_tlv (22, v) /\ zlen v = 2 /\ read_lid_length (v ++ post) = Some n.
Proof.
  intros H. exists (be16 n). unfold add_lid_length. change 2 with (zlen (be16 n)) at 1. rewrite add_tlv_ok by su. split; auto. rewrite be16_bytes, (u16_id n) by auto. split.
  - split; [cbn [fst snd]; su|]. split; [cbn [fst snd]; su|]. apply be_all.
  - split; auto. unfold read_lid_length. apply get_be_ok. unfold is_u16 in H. cbn. lia.
Qed.
Lemma flat_be16 ids : Forall is_u16 ids -> flat_map be16 ids = flat_map n16 ids.
Proof. induction 1 as [|x l U _ IH]; auto. cbn [flat_map]. now rewrite IH, be16_n16. Qed.
Lemma extensions_ok out ids : Forall is_u16 ids -> zlen ids <= 32767 -> exists v, add_extensions out ids = Some (out ++ wire_tlv (6, v)) /\ wf_tlv (6, v) /\ id_list v ids.
Proof.
  intros U L. pose proof (zlen_nonneg ids). exists (flat_map n16 ids). unfold add_extensions. rewrite flat_be16 by auto. rewrite u16_id by (unfold is_u16; lia). replace (zlen ids * 2) with (zlen (flat_map n16 ids)) by (rewrite zlen_flat_n16; lia).
  rewrite add_tlv_ok by (unfold is_u16; rewrite ?zlen_flat_n16; cbn; lia). split; auto. split.
  - split; [cbn [fst snd]; su|]. split; [unfold is_u16; cbn [snd]; rewrite zlen_flat_n16; lia|]. cbn [snd]. clear L H. induction U; [constructor|]. cbn [flat_map]. apply Forall_app. split; [apply n16_u16; auto|apply IHU].
  - exists []. rewrite app_nil_r. split; auto. split; [unfold zlen; cbn; lia|auto].
Qed.

(** ** Texts *)
Lemma zlen_skipn_z {A} (l : list A) n : 0 <= n <= zlen l -> zlen (skipn (Z.to_nat n) l) = zlen l - n.
Proof. intros. rewrite zlen_skipn; lia. Qed.
Lemma copy_text_ok st t post text n : 0 <= n <= zlen t -> n <= zlen text -> n < 18446744073709551616 ->
  copy_text (st :: t ++ post) text n = Some (firstn (Z.to_nat n) t ++ skipn (Z.to_nat n) text).
Proof.
  intros A B C. unfold copy_text. rewrite u64_id by (unfold is_u64; lia). rewrite zlen_cons, zlen_app. pose proof (zlen_nonneg post).
  destruct (Z.ltb_spec (zlen t + zlen post + 1) (n + 1)); [lia|]. destruct (Z.ltb_spec (zlen text) n); [lia|]. cbn [orb skipn]. f_equal. f_equal. apply firstn_le_app. lia.
Qed.
Lemma put_zero t text n : 0 <= n <= zlen t -> n < zlen text -> exists rest, zset (firstn (Z.to_nat n) t ++ skipn (Z.to_nat n) text) n 0 = Some (firstn (Z.to_nat n) t ++ 0 :: rest) /\ zlen (firstn (Z.to_nat n) t ++ 0 :: rest) = zlen text.
Proof.
  intros A B. pose proof (zlen_skipn_z text n ltac:(lia)) as L. destruct (skipn (Z.to_nat n) text) as [|x r] eqn:E; [rewrite zlen_nil in L; lia|].
  exists r. split; [apply zset_split; rewrite zlen_firstn; lia|]. rewrite zlen_app, zlen_firstn by lia. rewrite !zlen_cons in *. lia.
Qed.
Definition u64max := 18446744073709551616.
Lemma read_status_ok st t post text : zlen t < 65536 -> zlen text < u64max ->
  exists text', read_status (st :: t ++ post) (1 + zlen t) text = Some (st, text') /\ zlen text' = zlen text /\
    (text <> [] -> holds_text text' (firstn (Z.to_nat (zlen text - 1)) t)).
Proof.
  intros Lt Lx. unfold read_status. change (zget (st :: t ++ post) 0) with (Some st). cbn match. pose proof (zlen_nonneg t). pose proof (zlen_nonneg text). unfold u64max in Lx.
  destruct (Z.ltb_spec 0 (zlen text)) as [P|P].
  2: { exists text. rewrite andb_false_r. split; auto. split; auto. intros N. destruct text; [congruence|]. rewrite zlen_cons in P. pose proof (zlen_nonneg text). lia. }
  rewrite andb_true_r. destruct (Z.ltb_spec 1 (1 + zlen t)).
  - destruct (Z.leb_spec (1 + zlen t) (zlen text)).
    + replace (1 + zlen t - 1) with (zlen t) by lia. rewrite copy_text_ok by lia. destruct (put_zero t text (zlen t) ltac:(lia) ltac:(lia)) as (rest & Z1 & Z2). rewrite Z1. eexists. split; [reflexivity|]. split; auto. intros _. exists rest. f_equal.
      unfold zlen in *. rewrite !firstn_all2 by lia. reflexivity.
    + rewrite copy_text_ok by lia. rewrite zlen_app, zlen_firstn, zlen_skipn by lia. replace (Z.of_nat (Z.to_nat (zlen text - 1)) + (zlen text - Z.of_nat (Z.to_nat (zlen text - 1))) - 1) with (zlen text - 1) by lia.
      destruct (put_zero t text (zlen text - 1) ltac:(lia) ltac:(lia)) as (rest & Z1 & Z2). rewrite Z1. eexists. split; [reflexivity|]. split; auto. intros _. exists rest. reflexivity.
  - assert (t = []) as -> by (apply zlen_zero; lia). destruct text as [|x text]; [unfold zlen in P; cbn in P; lia|]. change (zset (x :: text) 0 0) with (Some (0 :: text)). exists (0 :: text). split; auto. split; [rewrite !zlen_cons; auto|]. intros _. exists text. now rewrite firstn_nil.
Qed.
Lemma read_peer_type_ok f t post text : t <> [] -> zlen t < 65536 -> 2 <= zlen text < u64max ->
  exists text', read_peer_type (f :: t ++ post) (1 + zlen t) text = Some (0, negb (Z.land f 1 =? 0), text') /\ zlen text' = zlen text /\
    holds_text text' (firstn (Z.to_nat (zlen text - 2)) t).
Proof.
  intros Nt Lt Lx. unfold u64max in Lx. unfold read_peer_type. pose proof (zlen_nonneg t). assert (0 < zlen t) by (destruct t; [congruence|]; rewrite zlen_cons; pose proof (zlen_nonneg t); lia).
  destruct (Z.eqb_spec (1 + zlen t) 0); [lia|]. change (zget (f :: t ++ post) 0) with (Some f). cbn match. destruct (Z.ltb_spec 1 (1 + zlen t)); [|lia]. destruct (Z.ltb_spec 0 (zlen text)); [|lia]. cbn [andb].
  destruct (Z.ltb_spec (1 + zlen t - 1) (zlen text - 1)).
  - replace (1 + zlen t - 1) with (zlen t) by lia. rewrite copy_text_ok by lia. destruct (put_zero t text (zlen t) ltac:(lia) ltac:(lia)) as (rest & Z1 & Z2). rewrite Z1. eexists. split; [reflexivity|]. split; auto. exists rest. f_equal.
    unfold zlen in *. rewrite !firstn_all2 by lia. reflexivity.
  - rewrite copy_text_ok by lia. rewrite u64_id by (unfold is_u64; lia). destruct (put_zero t text (zlen text - 2) ltac:(lia) ltac:(lia)) as (rest & Z1 & Z2). rewrite Z1. eexists. split; [reflexivity|]. split; auto. exists rest. reflexivity.
Qed.
Lemma add_tlv2_ok out ty a t : is_u16 ty -> zlen t <= 65534 -> add_tlv2 out ty [a] 1 (t ++ [0]) (zlen t) = Some (out ++ wire_tlv (ty, a :: t)).
Proof.
  intros U L. pose proof (zlen_nonneg t). unfold add_tlv2. change (u16 1) with 1. rewrite (u16_id (zlen t)) by (unfold is_u16; lia).
  rewrite zlen_app, !zlen_cons, zlen_nil. cbn [Z.add]. destruct (Z.ltb_spec (zlen t + (0 + 1)) (zlen t)); [lia|]. change (0 + 1 <? 1) with false. cbn [orb].
  rewrite !be16_n16 by (auto; unfold is_u16; lia). unfold wire_tlv. cbn [fst snd]. rewrite zlen_cons. replace (zlen t + 1) with (1 + zlen t) by lia.
  change (firstn (Z.to_nat 1) [a]) with [a]. rewrite firstn_exact. reflexivity.
Qed.
