(** Specification vocabulary: how much of what a peer has sent is held without having been
    dealt with.  [M]: the most bytes one read gives. *)
From Verif Require Import Base M_Frame M_Mse.

(** The states the reader of messages goes through: each call of framed_next begins where the
    last one ended. *)
Inductive reader (M : N) (e : ending) : dec_state -> bytes -> list bytes -> Prop :=
| rd_start reads : Forall (fun c => blen c <= M) reads -> reader M e Head [] reads
| rd_next st buf reads r st' buf' reads' : reader M e st buf reads -> framed_next st buf reads e = (r, st', buf', reads') -> reader M e st' buf' reads'.

(** The states of the encryption handshake, and the bytes received up to each: reads come until
    the handshake is done, and the time limit expires at some point. *)
Inductive shaking (M : N) (skey : bytes) (secs : N) (pada : bytes) (padc : N) (key : bytes) : shaker -> bytes -> Prop :=
| sh_start : shaking M skey secs pada padc key (build skey secs pada padc key) []
| sh_read s got b s' : shaking M skey secs pada padc key s got -> into_keystream s = None -> blen b <= M -> handle_input s b = Ok s' ->
    shaking M skey secs pada padc key s' (got ++ b)
| sh_expire s got s' : shaking M skey secs pada padc key s got -> into_keystream s = None -> handle_timeout s = Ok s' ->
    shaking M skey secs pada padc key s' got
(** taking away what is to be sent and the time to wait for *)
| sh_taken s got : shaking M skey secs pada padc key s got ->
    shaking M skey secs pada padc key (mkShaker (h_state s) None (h_padc_len s) (h_skey s) None (h_input s) (h_provide s)) got.
(** The time limit has not expired: the peer's key packet is awaited. *)
Definition awaiting_key (s : shaker) : Prop := exists k, h_state s = Packet2 k.
(** The bytes a script of reads gives. *)
Definition each_at_most (M : N) (reads : script) : Prop := forall t b, In (t, RData b) reads -> blen b <= M.
