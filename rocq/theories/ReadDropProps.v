(** C59: dropped addresses. *)
From Verif Require Import Base BitsModel NetaddrModel ReaderModel ReadDispModel ReaderSpec ReaderProofs ReadDispProofs ReadDropSpec ReadDropProofs.

(** C59: whatever packet, consumers and answers: once a callback about an
    address has answered RFC5444_DROP_ADDRESS, there is no further callback
    about this address, but for the end callback of the same consumer, which
    follows at once. *)
Theorem C59_dropped_address_hidden cb alloc fwd pkt pcons mcons m res tr m' :
  all_bytes pkt -> handle_packet cb pkt alloc fwd pcons mcons m = Ok (res, tr, m') ->
  forall later e earlier k, tr = later ++ e :: earlier -> e_address e = Some k -> drops_address cb k earlier -> only_its_end e earlier.
Proof.
  intros B E later e earlier k ET EK D. pose proof (handle_packet_hidden alloc pkt B cb fwd pcons mcons m) as W. rewrite E in W. cbn in W.
  eapply hidden_at; eauto.
Qed.

(** a message with two addresses and two consumers; the first one drops the
    first address in its start callback: one end callback, and only the second
    address for the other consumer *)
Definition pkt_ex : bytes := [0;  2;0x03;0;18; 0;0; 2;0;1;2;3;4;5;6;7;8; 0;0].
Definition lis (id : Z) : consumer :=
  {| c_id := id; c_order := id; c_default := false; c_msgid := 2; c_addrblock := true; c_start := true; c_tlv := true; c_block := false;
     c_failed := false; c_end := true; c_entries := [] |}.
Definition dropper (tr : list event) : answer :=
  {| a_res := match tr with EvStart 1 x :: _ => if x_index x =? 0 then DROP_ADDRESS else OKAY | _ => OKAY end; a_dnf := false; a_drops := [] |}.
Example C59_ex : all_bytes pkt_ex /\
  exists tr m', handle_packet dropper pkt_ex (fun _ => true) true [] [lis 1; lis 2] {| m_n := O; m_tlv := 0; m_addr := 0 |} = Ok (OKAY, tr, m') /\
    map (fun e => (is_end e, e_consumer e, e_address e)) (rev tr) =
      [(false, Some 1, Some (7, 0)); (true, Some 1, Some (7, 0)); (false, Some 1, Some (7, 1)); (true, Some 1, Some (7, 1));
       (false, Some 2, Some (7, 1)); (true, Some 2, Some (7, 1))] /\
    drops_address dropper (7, 0) (skipn 5 tr).
Proof.
  split; [apply Forall_forall; intros b Hb; repeat (destruct Hb as [<-|Hb]; [unfold is_u8; lia|]); destruct Hb|].
  do 2 eexists. split; [vm_compute; reflexivity|]. split; [vm_compute; reflexivity|].
  exists []. eexists. exists []. split; [vm_compute; reflexivity|]. split; vm_compute; reflexivity.
Qed.
Print Assumptions C59_dropped_address_hidden.
