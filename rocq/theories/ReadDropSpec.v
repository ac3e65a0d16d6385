(** Dropped addresses: the specification for C59. *)
From Verif Require Import Base ReaderModel ReadDispModel.

Definition e_ctx (e : event) : ctx :=
  match e with EvStart _ x | EvTlv _ x _ | EvBlock _ x _ _ | EvEnd _ x _ | EvForward x _ _ => x end.
Definition e_consumer (e : event) : option Z :=
  match e with EvStart c _ | EvTlv c _ _ | EvBlock c _ _ _ | EvEnd c _ _ => Some c | EvForward _ _ _ => None end.
Definition is_end (e : event) : bool := match e with EvEnd _ _ _ => true | _ => false end.

(** the address a callback is about: its block (by its position in the
    packet) and its number in the block; [None] for packet and message callbacks *)
Definition e_address (e : event) : option (Z * Z) :=
  match x_block (e_ctx e) with Some o => Some (o, x_index (e_ctx e)) | None => None end.

(** a callback about address [k] has asked to drop it (histories are newest first) *)
Definition drops_address (cb : list event -> answer) (k : Z * Z) (history : list event) : Prop :=
  exists later e earlier, history = later ++ e :: earlier /\ e_address e = Some k /\ a_res (cb (e :: earlier)) = DROP_ADDRESS.

(** the only thing which may follow is the end callback of the consumer that
    dropped the address, right behind the callback that did it *)
Definition only_its_end (e : event) (before : list event) : Prop :=
  is_end e = true /\ exists d earlier, before = d :: earlier /\ is_end d = false /\ e_consumer d = e_consumer e.
