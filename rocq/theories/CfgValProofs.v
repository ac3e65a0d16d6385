(** Tokens (C104). *)
From Verif Require Import Base BufLemmas SplitLemmas BitsModel StrBase IsoModel NetaddrModel StringModel StringSpec StringProofs StringProps CfgValModel CfgValSpec.

Lemma text_app w r : no_nul w -> text (w ++ 0 :: r) = w.
Proof. induction 1 as [|c w N F IH]; [reflexivity|]. cbn. destruct (Z.eqb_spec c 0); [easy|]. rewrite IH. reflexivity. Qed.
Lemma zget_app_at {A} (l : list A) x r : zget (l ++ x :: r) (zlen l) = Some x.
Proof. unfold zget, zlen. destruct (Z.ltb_spec (Z.of_nat (length l)) 0); [lia|]. rewrite Nat2Z.id, nth_error_app2, Nat.sub_diag by lia. reflexivity. Qed.
Lemma next_word s w ws : Words s (w :: ws) -> short w -> exists buf next, cpynextword BUF (Some s) 256 = Some (buf, next) /\ text buf = w /\
  match next with None => ws = [] | Some r => ws <> [] /\ Words r ws end.
Proof.
  intros W [L N]. destruct (C31_cpynextword BUF s 256 (w :: ws)) as (d & next & E & _ & _ & (r & Ed) & H & _); [unfold BUF, zlen; rewrite repeat_length; lia|lia|exact W|].
  exists d, next. split; [exact E|]. split; [|apply H; lia]. rewrite Ed. rewrite firstn_all2 by (unfold zlen in L; lia). apply text_app, N.
Qed.
Lemma token_loop_ok n : forall pre es s ws, Words s ws -> (n < length ws)%nat -> (n <= length es)%nat -> Forall short ws ->
  exists p, token_loop (pre ++ es) (zlen pre) n (Some s) = Some (checks (firstn n es) ws, p) /\
  (checks (firstn n es) ws = true -> exists r, p = Some r /\ Words r (skipn n ws)).
Proof.
  induction n as [|n IH]; intros pre es s ws W L1 L2 F.
  - cbn. eexists. split; [reflexivity|]. intros _. eauto.
  - destruct ws as [|w ws]; [cbn in L1; lia|]. destruct es as [|e es]; [cbn in L2; lia|]. cbn [token_loop firstn checks skipn].
    destruct (next_word s w ws W (Forall_inv F)) as (buf & next & -> & T & N). rewrite zget_app_at, T. destruct (te_check e w); cbn [andb]; [|eexists; split; [reflexivity|discriminate]].
    destruct next as [r|]; [|subst ws; cbn in L1; lia]. destruct N as [_ W']. destruct (IH (pre ++ [e]) es r ws W') as (p & E & H); [cbn in L1; lia|cbn in L2; lia|exact (Forall_inv_tail F)|].
    rewrite <- app_assoc in E. cbn [app] in E. rewrite zlen_app in E. change (zlen [e]) with 1 in E. exists p. split; [exact E|exact H].
Qed.
Lemma checks_app es1 : forall es2 ws1 ws2, length es1 = length ws1 -> checks (es1 ++ es2) (ws1 ++ ws2) = checks es1 ws1 && checks es2 ws2.
Proof. induction es1 as [|e es1 IH]; intros es2 [|w ws1] ws2 L; try discriminate; [reflexivity|]. cbn. rewrite IH by (cbn in L; lia). rewrite Bool.andb_assoc. reflexivity. Qed.
Lemma checks_cut es : forall ws ws' n, (n <= length ws)%nat -> (n <= length es)%nat -> checks (firstn n es) (firstn n ws ++ ws') = checks (firstn n es) ws.
Proof. induction es as [|e es IH]; intros [|w ws] ws' [|n] A B; cbn in *; try lia; try reflexivity. rewrite IH by lia. reflexivity. Qed.
Lemma validate_tokens_ok v entries optional custom ws w : Words v (ws ++ [w]) -> Forall short (ws ++ [w]) -> zlen entries < 4294967296 ->
  0 <= optional <= zlen entries -> zlen ws < zlen entries ->
  exists p, Words p [w] /\ validate_tokens v entries optional custom =
    Some ((zlen entries - optional <=? zlen ws + 1) && checks entries (ws ++ [p]) && match custom with None => true | Some f => f v end).
Proof.
  intros W F B O L. pose proof (zlen_nonneg ws). unfold validate_tokens. rewrite (C31_countwords _ _ W). rewrite zlen_app. change (zlen [w]) with 1.
  assert (u32 (zlen ws + 1) = zlen ws + 1) as -> by (apply u32_id; unfold is_u32; lia). replace (zlen ws + 1 - 1) with (zlen ws) by lia.
  assert (u32 (zlen ws) = zlen ws) as -> by (apply u32_id; unfold is_u32; lia). assert (u64 (zlen entries - optional) = zlen entries - optional) as -> by (apply u64_id; unfold is_u64; lia).
  destruct (Z.leb_spec (zlen entries - optional) (zlen ws + 1)) as [C|C]; destruct (Z.ltb_spec (zlen ws + 1) (zlen entries - optional)); try lia; cbn [andb].
  - rewrite Z.min_l by lia. replace (Z.to_nat (zlen ws)) with (length ws) by (unfold zlen; lia). destruct (token_loop_ok (length ws) [] entries v (ws ++ [w]) W) as (p & E & H'); [rewrite app_length; cbn; lia|unfold zlen in L; lia|exact F|].
    cbn [app] in E. change (zlen []) with 0 in E. rewrite E. destruct (zsplit entries (zlen ws)) as (e1 & e2 & Ee & L1 & _); [lia|]. destruct e2 as [|e e2]; [rewrite Ee, app_nil_r in L; lia|].
    assert (length e1 = length ws) as L1' by (unfold zlen in L1; lia). assert (firstn (length ws) entries = e1) as Fe by (rewrite Ee, <- L1', firstn_app, firstn_all, Nat.sub_diag; cbn; apply app_nil_r).
    rewrite Fe in *. assert (checks e1 (ws ++ [w]) = checks e1 ws) as Ce. { rewrite <- (app_nil_r e1) at 1. rewrite checks_app by exact L1'. destruct (checks e1 ws); reflexivity. }
    rewrite Ce in *. destruct (checks e1 ws) eqn:C1.
    + destruct (H' eq_refl) as (r & -> & Wr). rewrite skipn_app, skipn_all, Nat.sub_diag in Wr. cbn [app skipn] in Wr. exists r. split; [exact Wr|].
      rewrite Ee at 1. rewrite <- L1, zget_app_at. rewrite Ee, checks_app by exact L1'. rewrite C1. cbn [checks andb]. destruct (te_check e r); cbn [andb]; [|destruct e2; reflexivity]. destruct e2; reflexivity.
    + exists w. split; [|rewrite Ee, checks_app, C1 by exact L1'; reflexivity]. clear - W. revert v W. induction ws as [|x ws IH]; intros v W.
      * inversion W as [|b w' r ws2 Hb Nw Hw Hr W2 E1 E2]; subst. replace w with ([] ++ w ++ []) at 1 by (cbn; apply app_nil_r). apply Words_cons; auto; [discriminate|constructor; constructor].
      * cbn [app] in W. apply Words_next in W. destruct W as (_ & _ & W). exact (IH _ W).
  - exists w. split; [|reflexivity]. clear - W. revert v W. induction ws as [|x ws IH]; intros v W.
    + inversion W as [|b w' r ws2 Hb Nw Hw Hr W2 E1 E2]; subst. replace w with ([] ++ w ++ []) at 1 by (cbn; apply app_nil_r). apply Words_cons; auto; [discriminate|constructor; constructor].
    + cbn [app] in W. apply Words_next in W. destruct W as (_ & _ & W). exact (IH _ W).
Qed.
(** the conversions *)
Lemma tobin_none n : forall pre es, (n <= length es)%nat -> tobin_loop (pre ++ es) (zlen pre) n None = Some (converted (zlen pre) (firstn n es) (map te_def es), None).
Proof.
  induction n as [|n IH]; intros pre es L; [reflexivity|]. destruct es as [|e es]; [cbn in L; lia|]. cbn [tobin_loop firstn map converted]. rewrite zget_app_at.
  specialize (IH (pre ++ [e]) es ltac:(cbn in L; lia)). rewrite <- app_assoc, zlen_app in IH. change (zlen [e]) with 1 in IH. cbn [app] in IH. rewrite IH. reflexivity.
Qed.
Lemma tobin_loop_ok n : forall pre es s ws, Words s ws -> (n <= length es)%nat -> Forall short ws -> ws <> [] ->
  exists p, tobin_loop (pre ++ es) (zlen pre) n (Some s) = Some (converted (zlen pre) (firstn n es) (ws ++ map te_def (skipn (length ws) es)), p) /\
  match p with None => (length ws <= n)%nat | Some r => Words r (skipn n ws) /\ (n < length ws)%nat end.
Proof.
  induction n as [|n IH]; intros pre es s ws W L F N0.
  - cbn. eexists. split; [reflexivity|]. split; [exact W|destruct ws; [easy|cbn; lia]].
  - destruct ws as [|w ws]; [easy|]. destruct es as [|e es]; [cbn in L; lia|]. cbn [tobin_loop firstn app converted length skipn]. rewrite zget_app_at.
    destruct (next_word s w ws W (Forall_inv F)) as (buf & next & -> & T & N). rewrite T. destruct next as [r|].
    + destruct N as [N1 W']. destruct (IH (pre ++ [e]) es r ws W') as (p & E & H); [cbn in L; lia|exact (Forall_inv_tail F)|exact N1|]. rewrite <- app_assoc, zlen_app in E. change (zlen [e]) with 1 in E. cbn [app] in E. rewrite E.
      eexists. split; [reflexivity|]. destruct p; [destruct H; split; [assumption|lia]|lia].
    + subst ws. pose proof (tobin_none n (pre ++ [e]) es ltac:(cbn in L; lia)) as E. rewrite <- app_assoc, zlen_app in E. change (zlen [e]) with 1 in E. cbn [app] in E. rewrite E. cbn [app skipn length]. eexists. split; [reflexivity|]. cbn. lia.
Qed.
Lemma tobin_tokens_ok v entries ws : Words v ws -> Forall short ws -> ws <> [] -> entries <> [] ->
  exists rest, tobin_tokens v entries = Some (converted 0 (firstn (length entries - 1) entries) (ws ++ map te_def (skipn (length ws) entries)) ++ rest) /\
  if zlen ws <? zlen entries then rest = []
  else exists p e, Words p (skipn (length entries - 1) ws) /\ zget entries (zlen entries - 1) = Some e /\ rest = if te_bin e then [(zlen entries - 1, p)] else [].
Proof.
  intros W F N0 N1. assert (1 <= length entries)%nat as L by (destruct entries; [easy|cbn; lia]). unfold tobin_tokens. replace (Z.to_nat (zlen entries - 1)) with (length entries - 1)%nat by (unfold zlen; lia).
  destruct (tobin_loop_ok (length entries - 1) [] entries v ws W) as (p & E & H); [lia|exact F|exact N0|]. cbn [app] in E. change (zlen []) with 0 in E. rewrite E.
  assert (exists e, zget entries (zlen entries - 1) = Some e) as (e & Ee). { destruct (exists_last N1) as (l & e & ->). exists e. rewrite zlen_app. change (zlen [e]) with 1. replace (zlen l + 1 - 1) with (zlen l) by lia. apply zget_app_at. }
  destruct p as [r|].
  - destruct H as [Wr L2]. rewrite Ee. eexists. split; [reflexivity|]. destruct (Z.ltb_spec (zlen ws) (zlen entries)); [unfold zlen in *; lia|]. exists r, e. split; [exact Wr|]. split; [reflexivity|reflexivity].
  - exists []. rewrite app_nil_r. split; [reflexivity|]. destruct (Z.ltb_spec (zlen ws) (zlen entries)); [reflexivity|unfold zlen in *; lia].
Qed.
