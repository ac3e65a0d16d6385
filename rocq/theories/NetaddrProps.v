(** Property theorems C20-C27 (network addresses, comparators, ACLs). *)
From Verif Require Import Base BitsModel BitsSpec StrBase NetaddrModel NetaddrSpec NetaddrProofs NetaddrTextProofs CompModel CompProofs.

(** ** C20 binary round trip *)
(** The bytes come back, for an explicit and for a detected family; for UUID see below. *)
Theorem C20_binary_roundtrip_partial :
  forall b t n p cap, all_bytes b -> is_u8 p ->
  family_bytes t = Some n -> t <> AF_UUID -> zlen b = n -> n <= cap ->
  forall ty, ty = t \/ ty = 0 ->
  exists a, from_binary_prefix b ty p = Some (0, a) /\ na_wf a /\ na_type a = t /\
    na_plen a = (if p =? 255 then 8 * n else p) /\ to_binary a cap = Some (0, b).
Proof. exact from_binary_roundtrip. Qed.

(** With family detection, exactly the lengths 4, 6, 8 and 16 are accepted. *)
Theorem C20_autodetect_rejects_other_lengths :
  forall b p a rc, from_binary_prefix b 0 p = Some (rc, a) ->
  rc = 0 <-> (zlen b = 4 \/ zlen b = 6 \/ zlen b = 8 \/ zlen b = 16).
Proof. exact from_binary_autodetect_rejects. Qed.

(** It writes out of bounds exactly for an explicit family and more than 16 bytes. *)
Theorem C20_memory_safety_condition :
  forall b ty p, from_binary_prefix b ty p = None <-> ty <> 0 /\ zlen b > 16.
Proof. exact from_binary_faults. Qed.

(** A UUID cannot be converted back. *)
Theorem C20_uuid_roundtrip_refuted :
  exists b a, all_bytes b /\ zlen b = 16 /\ from_binary_prefix b AF_UUID 128 = Some (0, a) /\
    forall cap, to_binary a cap = Some (-1, []).
Proof. exists (repeat 7 16), {| na_addr := repeat 7 16; na_type := AF_UUID; na_plen := 128 |}.
  repeat split; try reflexivity. apply BufLemmas.Forall_repeat. unfold is_u8; lia. Qed.
(** A wrong length is not rejected if the family is given. *)
Theorem C20_wrong_length_rejected_refuted :
  exists b a, from_binary_prefix b AF_INET 255 = Some (0, a) /\ zlen b = 6 /\ na_plen a = 48.
Proof. exists [1;2;3;4;5;6], {| na_addr := [1;2;3;4;5;6] ++ repeat 0 10; na_type := AF_INET; na_plen := 48 |}. now vm_compute. Qed.

Example C20_ex : from_binary_prefix [10; 0; 0; 1] 0 24 = Some (0, {| na_addr := [10;0;0;1] ++ repeat 0 12; na_type := AF_INET; na_plen := 24 |}).
Proof. reflexivity. Qed.

(** ** C21 subnet test *)
Theorem C21_subnet_test_is_prefix_equality :
  forall net a, na_wf net -> na_wf a -> na_plen net <= 128 ->
  exists b, is_in_subnet net a = Some b /\ (b = true <-> member net a).
Proof. exact is_in_subnet_spec. Qed.

Theorem C21_subnet_test_is_containment :
  forall net a, na_wf net -> na_wf a -> na_plen net <= na_plen a -> na_plen a <= 128 ->
  (member net a <-> na_type net = na_type a /\ forall h, na_wf h -> member a h -> member net h).
Proof. exact containment. Qed.

Theorem C21_binary_subnet_test :
  forall net bin af, na_wf net -> all_bytes bin -> na_plen net <= maxprefix net ->
  exists b, binary_is_in_subnet net bin af = Some b /\
    (b = true <-> na_type net = af /\ maxprefix net = 8 * zlen bin /\ agree (na_plen net) (na_addr net) bin).
Proof. exact binary_is_in_subnet_spec. Qed.

(** reflexive, and transitive along growing prefix lengths *)
Theorem C21_subnet_test_refl_trans :
  (forall a, na_wf a -> na_plen a <= 128 -> is_in_subnet a a = Some true) /\
  (forall a b c, na_wf a -> na_wf b -> na_wf c -> na_plen a <= na_plen b -> na_plen b <= 128 ->
     is_in_subnet a b = Some true -> is_in_subnet b c = Some true -> is_in_subnet a c = Some true).
Proof.
  split.
  - intros a W P. destruct (is_in_subnet_spec a a W W P) as (b & -> & H). f_equal. apply H. split; auto. unfold agree; auto.
  - intros a b c Wa Wb Wc P1 P2 H1 H2.
    destruct (is_in_subnet_spec a b Wa Wb ltac:(lia)) as (x & E1 & M1). rewrite E1 in H1. injection H1 as ->.
    destruct (is_in_subnet_spec b c Wb Wc ltac:(lia)) as (y & E2 & M2). rewrite E2 in H2. injection H2 as ->.
    destruct (is_in_subnet_spec a c Wa Wc ltac:(lia)) as (z & -> & M3). f_equal. apply M3.
    destruct (proj1 M1 eq_refl) as [T1 A1], (proj1 M2 eq_refl) as [T2 A2]. split; [congruence|].
    intros i Hi. rewrite A1, A2 by lia. reflexivity.
Qed.

Definition ex_net := {| na_addr := [10; 1; 128] ++ repeat 0 13; na_type := AF_INET; na_plen := 17 |}.
Definition ex_host := {| na_addr := [10; 1; 200; 7] ++ repeat 0 12; na_type := AF_INET; na_plen := 32 |}.
Lemma ex_wf : na_wf ex_net /\ na_wf ex_host.
Proof. split; (split; [reflexivity|split; [repeat constructor; unfold is_u8; lia|split; split; vm_compute; congruence]]). Qed.
Example C21_ex : is_in_subnet ex_net ex_host = Some true /\ na_wf ex_net /\ na_wf ex_host /\ na_plen ex_net <= na_plen ex_host.
Proof. split; [reflexivity|]. split; [apply ex_wf|]. split; [apply ex_wf|vm_compute; congruence]. Qed.

(** ** C22 truncation *)
Theorem C22_truncate_keeps_prefix_bits :
  forall alias dst src, na_wf src -> na_wf dst -> na_plen src <= 128 ->
  exists r, truncate alias dst src = Some r /\ na_wf r /\
    na_type r = na_type src /\ na_plen r = na_plen src /\
    forall i, 0 <= i < 128 -> bit_at (na_addr r) i = (i <? na_plen src) && bit_at (na_addr src) i.
Proof. exact truncate_spec. Qed.

Theorem C22_truncate_idempotent :
  forall alias1 alias2 d1 d2 a r, na_wf a -> na_wf d1 -> na_wf d2 -> na_plen a <= 128 ->
  truncate alias1 d1 a = Some r -> truncate alias2 d2 r = Some r.
Proof. exact truncate_idem. Qed.

Theorem C22_truncate_equal_iff_same_subnet :
  forall a b d1 d2, na_wf a -> na_wf b -> na_wf d1 -> na_wf d2 -> na_plen a <= 128 ->
  na_type a = na_type b -> na_plen a = na_plen b ->
  (truncate false d1 a = truncate false d2 b <-> is_in_subnet a b = Some true).
Proof. exact truncate_eq_iff. Qed.

Example C22_ex : truncate true na_unspec {| na_addr := [10; 1; 200; 7] ++ repeat 0 12; na_type := AF_INET; na_plen := 17 |} = Some ex_net.
Proof. reflexivity. Qed.

(** ** C23 host creation *)
(** [j] is the position inside the number that is right-aligned at the end of
    the address; host bits in front of the number keep the network's bits. *)
Theorem C23_create_host_bits_partial :
  forall net number, na_wf net -> maxprefix net <> 0 -> na_plen net <= maxprefix net ->
  all_bytes number ->
  exists h, create_host_bin net number = Some (0, h) /\ na_wf h /\
    na_type h = na_type net /\ na_plen h = maxprefix net /\
    forall i, 0 <= i < 128 -> bit_at (na_addr h) i =
      let j := i - (maxprefix net - 8 * zlen number) in
      if (na_plen net <=? i) && (i <? maxprefix net) && (0 <=? j) then bit_at number j
      else bit_at (na_addr net) i.
Proof. exact create_host_spec. Qed.

Theorem C23_create_host_in_network :
  forall net number rc h, na_wf net -> na_plen net <= maxprefix net -> all_bytes number ->
  create_host_bin net number = Some (rc, h) -> rc = 0 -> is_in_subnet net h = Some true.
Proof.
  intros net number rc h W P B E R. subst rc.
  destruct (Z.eq_dec (maxprefix net) 0) as [M|M].
  - destruct (create_host_fail net number M) as [h' E']. congruence.
  - destruct (create_host_spec net number W M P B) as (h' & E' & Wh & T & _ & Bits). rewrite E in E'. injection E' as <-.
    assert (maxprefix net <= 128) by (destruct (maxprefix_cases net) as [|(m & -> & ?)]; lia).
    destruct (is_in_subnet_spec net h W Wh ltac:(lia)) as (b & -> & Hb). f_equal. apply Hb. split; [auto|].
    intros i Hi. rewrite Bits by lia. cbv zeta. destruct (Z.leb_spec (na_plen net) i); [lia|]. reflexivity.
Qed.

(** Unspecified networks are rejected - and so are UUID networks. *)
Theorem C23_create_host_fails_only_without_family :
  forall net number, maxprefix net = 0 -> exists h, create_host_bin net number = Some (-1, h).
Proof. exact create_host_fail. Qed.
Theorem C23_uuid_network_refuted :
  exists net, na_wf net /\ na_type net = AF_UUID /\ forall number, exists h, create_host_bin net number = Some (-1, h).
Proof.
  exists {| na_addr := zero16; na_type := AF_UUID; na_plen := 64 |}. split; [|split; [reflexivity|]].
  - split; [reflexivity|split; [apply BufLemmas.Forall_repeat; unfold is_u8; lia|split; split; vm_compute; congruence]].
  - intros; apply create_host_fail; reflexivity.
Qed.
Example C23_ex : option_map (fun r => na_addr (snd r)) (create_host_bin ex_net [1; 0x85; 9]) = Some ([10; 1; 0x85; 9] ++ repeat 0 12)
  /\ na_wf ex_net /\ maxprefix ex_net <> 0 /\ na_plen ex_net <= maxprefix ex_net.
Proof. split; [reflexivity|]. split; [apply ex_wf|]. split; vm_compute; congruence. Qed.

(** ** C24 netmasks: neither function computes the number of leading one bits *)
Theorem C24_create_prefix_correct_up_to_8_partial :
  forall prefix host netmask tr mx p, na_wf prefix -> na_wf host ->
  na_type host = na_type netmask -> maxprefix host = mx -> mx <> 0 -> 0 <= p <= mx ->
  na_addr netmask = contiguous_mask p ->
  exists r, create_prefix prefix host netmask tr = Some (0, r) /\ na_type r = na_type host /\
    (na_plen r = p <-> p <= 8) /\ na_plen r <= p.
Proof. exact create_prefix_mask. Qed.
Theorem C24_create_prefix_refuted :
  exists host netmask r, na_wf host /\ na_type host = na_type netmask /\ na_addr netmask = contiguous_mask 24 /\
    create_prefix na_unspec host netmask false = Some (0, r) /\ na_plen r <> 24.
Proof.
  exists ex_host, {| na_addr := contiguous_mask 24; na_type := AF_INET; na_plen := 32 |}. eexists.
  split; [apply ex_wf|]. split; [reflexivity|]. split; [reflexivity|]. split; [reflexivity|]. vm_compute. congruence.
Qed.
(** The mask /p parses as p - 1. *)
Theorem C24_subnetmask_one_short_partial :
  forall p, 1 <= p <= 32 -> subnetmask_len (4294967296 - 2 ^ (32 - p)) = p - 1.
Proof. exact subnetmask_off_by_one. Qed.
Theorem C24_subnetmask_parser_refuted :
  exists p, 1 <= p <= 32 /\ subnetmask_len (4294967296 - 2 ^ (32 - p)) <> p.
Proof. exists 24. split; [lia|vm_compute; congruence]. Qed.
Theorem C24_subnetmask_zero_refuted : subnetmask_len 0 = -1.
Proof. reflexivity. Qed.
Theorem C24_subnetmask_rejects_non_contiguous :
  forall v, is_u32 v -> subnetmask_len v <> -1 -> exists p, 1 <= p <= 32 /\ v = 4294967296 - 2 ^ (32 - p).
Proof. exact subnetmask_rejects. Qed.
(** A non-contiguous mask is accepted: 255.0.255.0 *)
Theorem C24_create_prefix_non_contiguous_refuted :
  exists r, create_prefix na_unspec ex_host {| na_addr := [255; 0; 255; 0] ++ repeat 0 12; na_type := AF_INET; na_plen := 32 |} false = Some (0, r)
    /\ na_plen r = 16.
Proof. eexists; split; reflexivity. Qed.
(** "10.1.2.3/255.255.255.0" becomes a /23 *)
Theorem C24_text_netmask_refuted :
  option_map na_plen (from_string pton4_ref (pton6_ref 8) (zs "10.1.2.3/255.255.255.0")) = Some 23.
Proof. vm_compute. reflexivity. Qed.
(** A prefix length far above the maximum is accepted if it is small modulo 2^32. *)
Theorem C24_text_prefix_overflow_refuted :
  option_map na_plen (from_string pton4_ref (pton6_ref 8) (zs "10.0.0.1/4294967320")) = Some 24.
Proof. vm_compute. reflexivity. Qed.

(** ** C25 comparison *)
Theorem C25_netaddr_cmp_total_order :
  forall a b c, na_wf a -> na_wf b -> na_wf c ->
  (na_cmp a b = 0 <-> a = b) /\ na_cmp b a = - na_cmp a b /\
  (na_cmp a b < 0 -> na_cmp b c < 0 -> na_cmp a c < 0).
Proof. exact na_cmp_order. Qed.
Theorem C25_comparators_are_orders :
  good_comp (fun _ : Z => True) comp_int /\ good_comp na_wf na_cmp /\
  (forall n, good_comp (fun b : bytes => length b = n) comp_socket) /\ good_comp cstr strcasecmp.
Proof. split; [apply comp_int_good|]. split; [apply na_cmp_good|]. split; [intros; apply memcmp_good|apply strcasecmp_good]. Qed.
Theorem C25_comparators_equality :
  (forall a b, (comp_int a b = 0 <-> a = b) /\ (comp_int a b < 0 <-> a < b) /\ (comp_int a b > 0 <-> a > b)) /\
  (forall a b, length a = length b -> (comp_socket a b = 0 <-> a = b)) /\
  (forall a b, cstr a -> cstr b -> (strcasecmp a b = 0 <-> map tolower a = map tolower b)).
Proof.
  split; [intros a b; split; [apply comp_int_good|apply comp_int_sign]|]. split; [|apply strcasecmp_good].
  intros a b L. apply (memcmp_good (length b)); auto.
Qed.
Example C25_ex : na_cmp ex_net ex_host < 0 /\ strcasecmp (zs "Lan0") (zs "lAN0") = 0 /\ strcasecmp (zs "lan") (zs "LAN0") < 0 /\ cstr (zs "Lan0").
Proof. repeat split; try reflexivity. repeat constructor; lia. Qed.

(** ** C26 text round trip *)
Theorem C26_mac48_text_roundtrip :
  forall ntop4 ntop6 pton4 pton6 a force, na_wf a -> canonical a -> na_type a = AF_MAC48 -> na_plen a <= 48 ->
  exists s, to_prefixstring ntop4 ntop6 a force = Some s /\ from_string pton4 pton6 s = Some a.
Proof. exact mac_string_roundtrip. Qed.
Theorem C26_eui64_text_roundtrip :
  forall ntop4 ntop6 pton4 pton6 a force, na_wf a -> canonical a -> na_type a = AF_EUI64 -> na_plen a <= 64 ->
  exists s, to_prefixstring ntop4 ntop6 a force = Some s /\ from_string pton4 pton6 s = Some a.
Proof. exact eui64_string_roundtrip. Qed.
Theorem C26_uuid_text_roundtrip_partial :
  forall ntop4 ntop6 pton4 pton6 a force, na_wf a -> na_type a = AF_UUID -> na_plen a <= 128 ->
  force = true \/ na_plen a = 128 ->
  exists s, to_prefixstring ntop4 ntop6 a force = Some s /\ from_string pton4 pton6 s = Some a.
Proof. exact uuid_string_roundtrip. Qed.
(** A UUID prefix loses its length. *)
Theorem C26_uuid_prefix_text_refuted :
  forall ntop4 ntop6 pton4 pton6, exists a s, na_wf a /\ na_type a = AF_UUID /\ na_plen a = 64 /\
  to_prefixstring ntop4 ntop6 a false = Some s /\ option_map na_plen (from_string pton4 pton6 s) = Some 128.
Proof.
  intros. exists {| na_addr := zero16; na_type := AF_UUID; na_plen := 64 |}. eexists. repeat split; try (vm_compute; congruence).
  apply BufLemmas.Forall_repeat; unfold is_u8; lia.
Qed.
(** IPv4 and IPv6 go through inet_ntop/inet_pton, of which [inet4_ok]/[inet6_ok] is assumed. *)
Theorem C26_ipv4_text_roundtrip :
  forall ntop4 ntop6 pton4 pton6 a force, inet4_ok ntop4 pton4 -> na_wf a -> canonical a -> na_type a = AF_INET -> na_plen a <= 32 ->
  exists s, to_prefixstring ntop4 ntop6 a force = Some s /\ from_string pton4 pton6 s = Some a.
Proof. exact ipv4_string_roundtrip. Qed.
Theorem C26_ipv6_text_roundtrip :
  forall ntop4 ntop6 pton4 pton6 a force, inet6_ok ntop6 pton6 -> na_wf a -> na_type a = AF_INET6 -> na_plen a <= 128 ->
  exists s, to_prefixstring ntop4 ntop6 a force = Some s /\ from_string pton4 pton6 s = Some a.
Proof. exact ipv6_string_roundtrip. Qed.
(** The assumptions can be met. *)
Theorem C26_inet_assumptions_satisfiable :
  inet4_ok ntop4_ref pton4_ref /\ inet6_ok ntop6_ref (pton6_ref 8).
Proof. split; [exact inet4_ref_ok|exact inet6_ref_ok]. Qed.
Example C26_ex :
  let a := {| na_addr := [2; 0xab; 0; 0x10; 9; 255] ++ repeat 0 10; na_type := AF_MAC48; na_plen := 24 |} in
  to_prefixstring ntop4_ref ntop6_ref a false = Some (zs "02:ab:00:10:09:ff/24") /\ na_wf a /\ canonical a.
Proof.
  split; [reflexivity|]. split.
  - split; [reflexivity|]. split; [repeat constructor; unfold is_u8; lia|split; split; vm_compute; congruence].
  - exists 6. split; [reflexivity|]. intros i Hi.
    assert (C : forallb (fun i => match zget ([2; 0xab; 0; 0x10; 9; 255] ++ repeat 0 10) i with Some 0 => true | _ => false end) (zrange 6 10) = true) by reflexivity.
    apply zsweep with (x := i) in C; [|lia]. cbn [na_addr]. destruct (zget _ i) as [[]|]; try discriminate. reflexivity.
Qed.

(** ** C27 ACL *)
Theorem C27_acl_decision :
  forall a x, Forall (fun n => na_wf n /\ na_plen n <= 128) (acl_accept a) ->
  Forall (fun n => na_wf n /\ na_plen n <= 128) (acl_reject a) -> na_wf x ->
  exists b, acl_check a x = Some b /\ (b = true <-> acl_accepts a x).
Proof. exact acl_check_spec. Qed.
Theorem C27_acl_parse :
  forall parse l A R,
  map parse (acc_words l) = map Some A -> map parse (rej_words l) = map Some R ->
  acl_from_strarray parse l = AclOk {| acl_accept := A; acl_reject := R;
    acl_reject_first := last_flag (zs "first_reject") (zs "first_accept") l false;
    acl_accept_default := last_flag (zs "default_accept") (zs "default_reject") l false |}.
Proof. exact acl_parse_ok. Qed.
Theorem C27_acl_parse_error :
  forall parse l, (exists x, In x (acc_words l ++ rej_words l) /\ parse x = None) ->
  acl_from_strarray parse l = AclErr.
Proof. exact acl_parse_err. Qed.
Theorem C27_acl_parse_memory_safe : forall parse l, acl_from_strarray parse l <> AclFault.
Proof. exact acl_parse_total. Qed.
Example C27_ex :
  let parse := from_string pton4_ref (pton6_ref 8) in
  let l := [zs "first_reject"; zs "-10.1.200.0/24"; zs "+10.1.128.0/17"; zs "10.2.0.0/16"; zs "DEFAULT_accept"; zs "default_reject"] in
  acc_words l = [zs "10.1.128.0/17"; zs "10.2.0.0/16"] /\ rej_words l = [zs "10.1.200.0/24"] /\
  match acl_from_strarray parse l with
  | AclOk a => acl_check a ex_host = Some false /\ acl_check a ex_net = Some true /\ acl_accept_default a = false /\ acl_reject_first a = true
  | _ => False
  end.
Proof. vm_compute. repeat split. Qed.

Print Assumptions C20_binary_roundtrip_partial.
Print Assumptions C21_subnet_test_is_prefix_equality.
Print Assumptions C21_subnet_test_is_containment.
Print Assumptions C21_binary_subnet_test.
Print Assumptions C22_truncate_keeps_prefix_bits.
Print Assumptions C22_truncate_equal_iff_same_subnet.
Print Assumptions C23_create_host_bits_partial.
Print Assumptions C24_create_prefix_correct_up_to_8_partial.
Print Assumptions C24_subnetmask_rejects_non_contiguous.
Print Assumptions C25_netaddr_cmp_total_order.
Print Assumptions C25_comparators_are_orders.
Print Assumptions C26_mac48_text_roundtrip.
Print Assumptions C26_uuid_text_roundtrip_partial.
Print Assumptions C26_ipv6_text_roundtrip.
Print Assumptions C26_inet_assumptions_satisfiable.
Print Assumptions C27_acl_decision.
Print Assumptions C27_acl_parse.
Print Assumptions C27_acl_parse_memory_safe.
