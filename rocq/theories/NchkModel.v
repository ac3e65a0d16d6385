(** The plugin that checks received HELLO messages: src/nhdp/nhdpcheck/nhdpcheck.c.

    Simplifications: a message is given by the fields of its header, its message TLVs
    and for each address the TLVs that apply to it (rfc5444_reader.c:653-656; with the
    length of the value of one address).  The search of the reader for the TLVs of a
    consumer entry (rfc5444_reader.c:622-748, ReadDispModel.v) gives all TLVs of the type, in
    order: the entries of this plugin have no type extension and no constraints.  The
    output of the log is left out. *)
From Verif Require Import Base.

Record tlv := mkTlv { t_type : Z; t_len : Z; t_val : Z }.
Record hello := mkHello {
  h_addrlen : Z; h_hoplimit : option Z; h_hopcount : option Z;
  h_tlvs : list tlv; h_addrs : list (list tlv) }.

(** rfc5444_iana.h:108-109 and 204-209 *)
Definition ITIME : Z := 0.
Definition VTIME : Z := 1.
Definition LOCAL_IF : Z := 2.
Definition LINK_STATUS : Z := 3.
Definition OTHER_NEIGHB : Z := 4.

(** the list [tlv], [tlv->next_entry], ... of a consumer entry *)
Definition entry (ty : Z) (l : list tlv) : list tlv := filter (fun t => t_type t =? ty) l.

(** nhdpcheck.c:163-192 [_cb_message_start_callback] *)
Definition message_start (h : hello) : bool :=
  if negb (h_addrlen h =? 4) && negb (h_addrlen h =? 16) then false
  else if match h_hoplimit h with Some n => negb (n =? 1) | None => false end then false
  else if match h_hopcount h with Some n => negb (n =? 0) | None => false end then false
  else true.
(** nhdpcheck.c:199-236 [_cb_messagetlvs] *)
Definition messagetlvs (l : list tlv) : bool :=
  match entry VTIME l with
  | [v] =>
    if negb (t_len v =? 1) then false
    else match entry ITIME l with
         | [] => true
         | [i] => if negb (t_len i =? 1) then false else if t_val i >? t_val v then false else true
         | _ => false
         end
  | _ => false
  end.
(** nhdpcheck.c:244-308 [_cb_addresstlvs] *)
Definition addresstlvs (l : list tlv) : bool :=
  let some := fun ty => match entry ty l with [] => false | _ => true end in
  let bad := fun ty => match entry ty l with [] => false | [t] => negb (t_len t =? 1) | _ => true end in
  if some LOCAL_IF && (bad LOCAL_IF || some LINK_STATUS || some OTHER_NEIGHB) then false
  else if bad LINK_STATUS then false
  else if bad OTHER_NEIGHB then false
  else true.

(** rfc5444_reader.c:1207-1222: a consumer gets the TLVs of the addresses if its flag
    [addrblock_consumer] is set, otherwise those of the message *)
Definition consume (addrblock : bool) (cb : list tlv -> bool) (h : hello) : bool :=
  if addrblock then forallb cb (h_addrs h) else cb (h_tlvs h).
(** nhdpcheck.c:101-124: the two consumers; the flag of the second one is not set
    (nhdp_reader.c:149 sets it for the same TLVs) *)
Definition address_consumer_flag : bool := false.
Definition check (flag : bool) (h : hello) : bool :=
  message_start h && consume false messagetlvs h && consume flag addresstlvs h.
Definition accepted (h : hello) : bool := check address_consumer_flag h.
