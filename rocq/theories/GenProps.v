(** Message generation: C46, C47, C64. *)
From Coq Require Import Permutation Sorted.
From Verif Require Import Base BitsModel NetaddrModel ReaderModel ReadDispModel WireSpec GenModel GenSpec GenLoop GenTerm GenChain GenRead.

(** ** C46: every message generation ends, with an error or with all addresses *)

(** If it ends, then with "MTU too small" before any message, or with every
    other address in exactly one message, in the order of the list. *)
Theorem C46_nothing_lost : forall n c r out, generate n c = GDone r out ->
  (r = G_MTU_TOO_SMALL /\ out = []) \/ (r = G_OKAY /\ others_once c out /\ ordered c out).
Proof. intros n c r out H. exact (generate_done _ _ _ _ H). Qed.

(** It ends if every address fits into a message together with the mandatory
    ones.  (Missing: this does not hold for other addresses, see below.) *)
Theorem C46_terminates_partial : forall c, cfg_ok c -> progress_possible c ->
  exists n, forall s, generate n c <> GRun s.
Proof. exact generate_terminates. Qed.

(** Mandatory addresses at the start of the list are in all messages. *)
Theorem C46_mandatory_partial : forall n c r out, cfg_ok c -> progress_possible c -> mand_first c ->
  generate n c = GDone r out -> mandatory_everywhere c out.
Proof. intros n c r out CO P M G. exact (generate_mand _ _ _ _ CO P M G). Qed.

Definition a4 (x y z w pl : Z) (m : bool) (ts : list gtlv) : gaddr := Gaddr [x; y; z; w] pl m ts.
Definition ex_ok : gcfg :=
  Gcfg 4 [a4 10 0 0 1 32 true []; a4 10 0 0 2 32 false []; a4 10 9 0 1 32 false []; a4 11 9 0 1 32 false []; a4 11 9 0 2 32 false []] 20 100.
Ltac cfg_tac :=
  split; [cbn; lia|]; split; [|cbn; lia]; repeat constructor; cbn; try lia; repeat constructor; cbn; try lia.
Example C46_ex : cfg_ok ex_ok /\ progress_possible ex_ok /\ mand_first ex_ok /\
  exists out, generate 20 ex_ok = GDone G_OKAY out /\ map fr_members out = [[0; 1; 2; 3]; [0; 4]].
Proof.
  split; [cfg_tac|]. split.
  { split; [vm_compute; discriminate|]. intros a [<-|[<-|[<-|[<-|[<-|[]]]]]]; intros M; try discriminate M; vm_compute; discriminate. }
  split.
  { intros p q a b G H A B. pose proof (zget_bound _ _ _ G) as BP. pose proof (zget_bound _ _ _ H) as BQ.
    unfold zget in G, H. destruct (Z.ltb_spec p 0), (Z.ltb_spec q 0); try lia.
    destruct (Z.to_nat p) as [|p'] eqn:EP; [injection G as <-; discriminate|].
    destruct (Z.to_nat q) as [|[|[|[|[|q']]]]] eqn:EQ; cbn in H; try (injection H as <-; discriminate); [lia|].
    destruct q'; discriminate. }
  eexists. split; vm_compute; reflexivity.
Qed.

(** An address with a TLV that fits into no message makes the loop create
    empty messages for ever, once another one has been created. *)
Definition ex_livelock : gcfg :=
  Gcfg 4 [a4 10 0 0 1 32 false []; a4 10 0 0 2 32 false [Gtlv 1 7 0 (repeat 5 20)]] 20 100.
Definition stuck (s : gstate) : Prop :=
  exists x0 s0 m0 h0 e0 x1 s1 m1 h1 e1 idx acs st spl out,
    s = Gst [Aobj x0 s0 m0 h0 e0 true; Aobj x1 s1 m1 h1 e1 false] 1 true [] acs st spl 1 (Some 0) idx 1 false out.
Lemma stuck_step s : stuck s -> exists s', g_step ex_livelock s = GRun s' /\ stuck s'.
Proof.
  intros (x0 & s0 & m0 & h0 & e0 & x1 & s1 & m1 & h1 & e1 & idx & acs & st & spl & out & ->).
  eexists. split; [lazy; reflexivity|]. repeat eexists.
Qed.
Lemma stuck_run : forall n s, stuck s -> exists s', g_run n ex_livelock s = GRun s'.
Proof.
  induction n as [|n IH]; intros s K; [eexists; reflexivity|]. destruct (stuck_step s K) as (s' & E & K').
  cbn [g_run]. rewrite E. apply IH, K'.
Qed.
Lemma stuck_start : exists s, g_run 4 ex_livelock (g_init ex_livelock) = GRun s /\ stuck s.
Proof. eexists. split; [lazy; reflexivity|]. repeat eexists. Qed.
Lemma g_run_add c : forall k n s s', g_run k c s = GRun s' -> g_run (k + n) c s = g_run n c s'.
Proof.
  induction k as [|k IH]; intros n s s' E; cbn [g_run Nat.add] in *; [now injection E as <-|].
  destruct (g_step c s); try discriminate. now apply IH.
Qed.
Lemma g_run_less c : forall k n s s', g_run (k + n) c s = GRun s' -> exists s1, g_run k c s = GRun s1.
Proof.
  induction k as [|k IH]; intros n s s' E; cbn [g_run Nat.add] in *; [eexists; reflexivity|].
  destruct (g_step c s); try discriminate. eapply IH, E.
Qed.
Theorem C46_terminates_refuted : exists c, cfg_ok c /\ distinct c /\ no_mand c /\ plain_tlvs c /\ forall n, exists s, generate n c = GRun s.
Proof.
  exists ex_livelock. split; [cfg_tac|]. split; [|split; [|split]].
  - unfold distinct. cbn. repeat constructor; cbn; intuition discriminate.
  - repeat constructor.
  - split.
    + intros a t a' t' [<-|[<-|[]]]; cbn [ga_tlvs ex_livelock a4]; [intros []|]. intros [<-|[]] [<-|[<-|[]]]; cbn [ga_tlvs a4]; [intros []|].
      intros [<-|[]]. tauto.
    + intros a [<-|[<-|[]]]; cbn; repeat constructor. intros [].
  - intros n. change (exists s, g_run n ex_livelock (g_init ex_livelock) = GRun s).
    destruct stuck_start as (s & E & K). destruct (stuck_run n s K) as (s' & R).
    apply (g_run_less _ n 4 _ s'). rewrite Nat.add_comm, (g_run_add _ 4 n _ _ E). exact R.
Qed.

(** A mandatory address behind other ones is missing in the first messages.
    (An address first added as a normal one, then as mandatory, keeps its
    place in the list.) *)
Definition ex_interleaved : gcfg :=
  Gcfg 4 [a4 10 0 0 1 32 false [Gtlv 1 7 0 (repeat 5 10)]; a4 10 0 0 2 32 false [Gtlv 1 7 0 (repeat 5 12)]; a4 10 9 0 1 32 true []] 38 100.
Theorem C46_mandatory_refuted : exists n c out, cfg_ok c /\ progress_possible c /\ generate n c = GDone G_OKAY out /\ ~ mandatory_everywhere c out.
Proof.
  exists 20%nat, ex_interleaved. eexists. split; [cfg_tac|]. split.
  { split; [vm_compute; discriminate|]. intros a [<-|[<-|[<-|[]]]]; intros M; try discriminate M; vm_compute; discriminate. }
  split; [vm_compute; reflexivity|]. intros M.
  specialize (M 2 (a4 10 9 0 1 32 true []) _ eq_refl eq_refl (or_introl eq_refl)). cbn in M.
  destruct M as [M|[]]. discriminate M.
Qed.

(** ** C47, C64: a message says what was added to it *)

(** At most 255 addresses with different bytes and one tlvtype object for each
    TLV type: the address blocks of the first message, and without mandatory
    addresses of all messages, encode by the rules of RFC 5444 the addresses
    and prefix lengths of the message in their order.  (Missing: equal bytes
    with different prefix lengths, more addresses and later messages with
    mandatory addresses, see below.) *)
Theorem C47_addresses_partial : forall n c r out, cfg_ok c -> distinct c -> plain_tlvs c -> zlen (gc_addrs c) <= 255 ->
  generate n c = GDone r out -> forall k f, zget out k = Some f -> k = 0 \/ no_mand c ->
  exists bs : list (wblock * list gaddr),
    fr_bytes f = flat_map enc_block (map fst bs) /\ addresses_of c f = map Some (concat (map snd bs)) /\
    Forall (fun x => wf_block (gc_al c) (fst x) /\ has_addresses (gc_al c) (fst x) (snd x)) bs.
Proof.
  intros n c r out OK DI PT FEW G k f Z K. destruct (generate_says c OK DI PT FEW n r out G k f Z K) as (bs & A & B & F).
  exists bs. split; [exact A|]. split; [exact B|]. eapply Forall_impl; [|exact F]. cbv beta. tauto.
Qed.

(** ... and every address of a block has its TLVs there and no others. *)
Theorem C64_tlvs_partial : forall n c r out, cfg_ok c -> distinct c -> plain_tlvs c -> zlen (gc_addrs c) <= 255 ->
  generate n c = GDone r out -> forall k f, zget out k = Some f -> k = 0 \/ no_mand c -> says c f.
Proof. intros n c r out OK DI PT FEW G. exact (generate_says c OK DI PT FEW n r out G). Qed.

(** So the reader tells every consumer of address blocks about all addresses
    of the message with their prefix lengths and TLVs. *)
Theorem C47_received_partial : forall n c r out, cfg_ok c -> distinct c -> plain_tlvs c -> zlen (gc_addrs c) <= 255 ->
  generate n c = GDone r out -> forall k f, zget out k = Some f -> k = 0 \/ no_mand c ->
  exists bs, fr_bytes f = flat_map enc_block bs /\ Forall (wf_block (gc_al c)) bs /\
    forall cb alloc fwd pcons mcons m p before M after k,
      wf_pkt p -> (forall n, alloc n = true) -> (forall h, a_res (cb h) = OKAY) ->
      wp_msgs p = before ++ M :: after -> wm_addrlen M = gc_al c -> wm_blocks M = bs ->
      In k mcons -> (c_default k = true \/ c_msgid k = wm_type M) -> c_addrblock k = true ->
      exists tr m', handle_packet cb (enc_pkt p) alloc fwd pcons mcons m = Ok (OKAY, tr, m') /\
        forall q, In q (fr_members f) -> exists a, zget (gc_addrs c) q = Some a /\ shown (enc_pkt p) tr k a.
Proof.
  intros n c r out OK DI PT FEW G k f Z K. exact (says_shown c f (generate_says c OK DI PT FEW n r out G k f Z K)).
Qed.

(** two blocks in the first of two messages, prefix lengths, a head, a tail,
    TLVs with one value, with a value for each address and for one address *)
Definition ex_says : gcfg :=
  Gcfg 4 [a4 10 1 1 9 32 false [Gtlv 1 7 0 [5]; Gtlv 2 8 3 [1; 2]]; a4 10 1 2 9 32 false [Gtlv 1 7 0 [5]; Gtlv 2 8 3 [1; 3]];
          a4 10 1 3 9 24 false [Gtlv 1 7 0 [5]]; a4 172 16 0 0 12 false []; a4 172 16 4 0 24 false [Gtlv 2 8 3 []]; a4 192 168 4 0 24 false [Gtlv 1 7 0 [9]]] 50 100.
Ltac plain_tac :=
  split;
    [let a := fresh in let t := fresh in let a' := fresh in let t' := fresh in
     intros a t a' t' Ha Ht Ha' Ht'; cbn in Ha, Ha';
     repeat (destruct Ha as [<-|Ha]; [|]); try destruct Ha; cbn in Ht; repeat (destruct Ht as [<-|Ht]; [|]); try destruct Ht;
     repeat (destruct Ha' as [<-|Ha']; [|]); try destruct Ha'; cbn in Ht'; repeat (destruct Ht' as [<-|Ht']; [|]); try destruct Ht';
     cbn; split; intros X; try discriminate X; reflexivity
    |let a := fresh in intros a Ha; cbn in Ha; repeat (destruct Ha as [<-|Ha]; [|]); try destruct Ha;
     cbn; repeat constructor; cbn; intuition discriminate].
Ltac distinct_tac := unfold distinct; cbn; repeat constructor; cbn; intuition discriminate.
Example C47_ex : cfg_ok ex_says /\ distinct ex_says /\ plain_tlvs ex_says /\ no_mand ex_says /\
  exists out, generate 40 ex_says = GDone G_OKAY out /\ map fr_members out = [[0; 1; 2; 3; 4]; [5]] /\
    map fr_bytes out =
      [[3; 0xc8; 2; 10; 1; 1; 9; 1; 2; 3; 32; 32; 24; 0; 14; 7; 16; 1; 5; 8; 0xb4; 3; 0; 1; 4; 1; 2; 1; 3;
        2; 0xa8; 2; 172; 16; 1; 0; 4; 12; 24; 0; 4; 8; 0xc0; 3; 1];
       [1; 16; 192; 168; 4; 0; 24; 0; 4; 7; 16; 1; 9]].
Proof.
  split; [cfg_tac|]. split; [distinct_tac|]. split; [plain_tac|]. split; [repeat constructor|].
  eexists. split; [vm_compute; reflexivity|]. split; vm_compute; reflexivity.
Qed.

(** An address added twice with different prefix lengths: the compression
    reads behind its table (IPv6) or the last block has no start (IPv4). *)
Definition ones16 : bytes := [1; 1; 1; 1; 1; 1; 1; 1; 1; 1; 1; 1; 1; 1; 1; 1].
Definition ex_eq6 : gcfg := Gcfg 16 [Gaddr ones16 128 false []; Gaddr ones16 64 false []] 100 100.
Definition nine (x : Z) : bytes := [x; x; x; x; x; x; x; x; x].
Definition ex_eq4 : gcfg :=
  Gcfg 4 [a4 1 0 1 0 24 false [Gtlv 1 7 0 (nine 2)]; a4 1 0 1 0 32 false [Gtlv 2 8 0 [2]]; a4 1 0 1 1 24 false [Gtlv 2 8 0 (nine 1)];
          a4 1 0 1 1 32 false [Gtlv 1 7 0 (nine 2)]; a4 1 1 1 0 32 false [Gtlv 1 7 0 (nine 2)]] 100 100.
Theorem C47_prefixes_refuted : exists c6 c4, gc_al c6 = 16 /\ gc_al c4 = 4 /\
  forall c, c = c6 \/ c = c4 -> cfg_ok c /\ NoDup (map (fun a => (ga_bytes a, ga_plen a)) (gc_addrs c)) /\ plain_tlvs c /\ no_mand c /\
    zlen (gc_addrs c) <= 255 /\ generate 10 c = GFault.
Proof.
  exists ex_eq6, ex_eq4. split; [reflexivity|]. split; [reflexivity|].
  intros c [-> | ->].
  - split; [cfg_tac|]. split; [cbn; repeat constructor; cbn; intuition discriminate|]. split; [plain_tac|].
    split; [repeat constructor|]. split; [vm_compute; discriminate|vm_compute; reflexivity].
  - split; [cfg_tac|]. split; [cbn; repeat constructor; cbn; intuition discriminate|]. split; [plain_tac|].
    split; [repeat constructor|]. split; [vm_compute; discriminate|vm_compute; reflexivity].
Qed.

(** 256 addresses with a common head: one block with the number 0. *)
Definition ex_many : gcfg := Gcfg 4 (map (fun i => a4 10 0 (i / 256) (i mod 256) 32 false []) (zrange 0 256)) 4000 4000.
Theorem C47_many_refuted : exists c out f, cfg_ok c /\ distinct c /\ plain_tlvs c /\ no_mand c /\ zlen (gc_addrs c) = 256 /\
  generate 400 c = GDone G_OKAY out /\ zget out 0 = Some f /\ ~ says c f.
Proof.
  exists ex_many. eexists. eexists. split.
  { split; [cbn; lia|]. split; [|cbn; lia]. apply Forall_forall. intros a A. apply in_map_iff in A as (i & <- & I). apply zrange_In in I.
    change (0 + Z.of_nat 256) with 256 in I.
    pose proof (Z.mod_pos_bound i 256 ltac:(lia)). pose proof (Z.div_le_mono 0 i 256 ltac:(lia) ltac:(lia)). pose proof (Z.div_lt_upper_bound i 256 256 ltac:(lia) ltac:(lia)). change (0 / 256) with 0 in *.
    split; [reflexivity|]. split; [repeat constructor; unfold is_u8; try lia|]. split; [cbn; lia|apply Forall_nil]. }
  split.
  { unfold distinct. cbn [ex_many gc_addrs]. rewrite map_map. cbn [a4 ga_bytes]. apply FinFun.Injective_map_NoDup.
    - intros i j E. injection E as E1 E2. rewrite (Z.div_mod i 256), (Z.div_mod j 256) by lia. congruence.
    - assert (ZN : forall n lo, NoDup (zrange lo n)).
      { induction n as [|n IH]; intros lo; cbn [zrange]; constructor; [|apply IH]. intros I. apply zrange_In in I. lia. }
      apply ZN. }
  split.
  { split; [intros a t a' t' A T|intros a A]; cbn [ex_many gc_addrs] in A; apply in_map_iff in A as (i & <- & _); [destruct T|constructor]. }
  split. { apply Forall_forall. intros a A. cbn [ex_many gc_addrs] in A. apply in_map_iff in A as (i & <- & _). reflexivity. }
  split; [vm_compute; reflexivity|]. split; [vm_compute; reflexivity|]. split; [reflexivity|].
  intros SY. apply received_test in SY; [revert SY; vm_compute; discriminate|vm_compute; split; discriminate|vm_compute; reflexivity].
Qed.

(** With mandatory addresses a later message can have blocks that were chosen
    for an earlier one: it tells addresses nobody added. *)
Definition v6 (l : bytes) (m : bool) (ts : list gtlv) : gaddr := Gaddr l 128 m ts.
Definition ex_stale : gcfg :=
  Gcfg 16 [v6 [1;2;3;4;5;6;0;0;0;0;0;0;0;0;0;9] true []; v6 [1;2;7;7;7;7;0;0;0;0;0;0;0;0;0;8] true [];
           v6 [5;1;0;0;0;0;0;0;0;0;0;0;0;0;0;1] false [Gtlv 1 7 0 [0;0;0;0;0]];
           v6 [1;2;7;7;7;7;20;20;20;20;20;20;20;20;20;20] false []; v6 [1;2;7;7;7;7;21;21;21;21;21;21;21;21;21;21] false [];
           v6 [1;2;7;7;7;8;30;30;30;30;30;30;30;30;30;20] false []; v6 [1;2;7;7;7;8;30;30;30;30;30;30;30;30;30;21] false [];
           v6 [1;2;7;7;7;8;30;30;30;30;30;30;30;30;30;22] false []] 66 10000.
Theorem C47_mandatory_refuted : exists c out f, cfg_ok c /\ distinct c /\ plain_tlvs c /\ zlen (gc_addrs c) <= 255 /\ mand_first c /\
  generate 100 c = GDone G_OKAY out /\ In f out /\ ~ says c f.
Proof.
  exists ex_stale. eexists. eexists. split; [cfg_tac|]. split; [distinct_tac|]. split; [plain_tac|]. split; [vm_compute; discriminate|]. split.
  { intros p q a b G H A B. destruct (Z.lt_ge_cases q p) as [|GE]; [assumption|exfalso].
    pose proof (zget_bound _ _ _ G) as BP. pose proof (zget_bound _ _ _ H) as BQ. change (zlen (gc_addrs ex_stale)) with 8 in *.
    unfold zget in G, H. destruct (Z.ltb_spec p 0), (Z.ltb_spec q 0); try lia.
    assert (2 <= p).
    { destruct (Z.eq_dec p 0) as [->|]; [injection G as <-; discriminate|]. destruct (Z.eq_dec p 1) as [->|]; [injection G as <-; discriminate|lia]. }
    assert (q = 2 \/ q = 3 \/ q = 4 \/ q = 5 \/ q = 6 \/ q = 7) as Q by lia.
    repeat (destruct Q as [-> |Q]; [injection H as <-; discriminate|]). subst q. injection H as <-; discriminate. }
  split; [vm_compute; reflexivity|]. split; [right; right; left; reflexivity|].
  intros SY. apply received_test in SY; [revert SY; vm_compute; discriminate|vm_compute; split; discriminate|vm_compute; reflexivity].
Qed.

(** Two tlvtype objects for one TLV type: a value is lost. *)
Definition ex_types : gcfg :=
  Gcfg 4 [a4 10 0 0 1 32 false [Gtlv 2 7 0 [1]; Gtlv 1 7 0 [2]]; a4 10 0 0 2 32 false [Gtlv 1 7 0 [1]]] 100 100.
Theorem C64_types_refuted : exists c out f, cfg_ok c /\ distinct c /\ no_mand c /\ zlen (gc_addrs c) <= 255 /\
  generate 10 c = GDone G_OKAY out /\ In f out /\ ~ says c f.
Proof.
  exists ex_types. eexists. eexists. split; [cfg_tac|]. split; [distinct_tac|]. split; [repeat constructor|]. split; [vm_compute; discriminate|].
  split; [vm_compute; reflexivity|]. split; [left; reflexivity|].
  intros SY. apply received_test in SY; [revert SY; vm_compute; discriminate|vm_compute; split; discriminate|vm_compute; reflexivity].
Qed.

Print Assumptions C46_nothing_lost.
Print Assumptions C46_terminates_partial.
Print Assumptions C46_mandatory_partial.
Print Assumptions C46_terminates_refuted.
Print Assumptions C46_mandatory_refuted.
Print Assumptions C47_addresses_partial.
Print Assumptions C64_tlvs_partial.
Print Assumptions C47_received_partial.
Print Assumptions C47_prefixes_refuted.
Print Assumptions C47_many_refuted.
Print Assumptions C47_mandatory_refuted.
Print Assumptions C64_types_refuted.
