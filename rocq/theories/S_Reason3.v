(** Specification: why the encryption handshake failed (HandshakeError; continues S_Mse). *)
From Verif Require Import Base S_Mse M_Rc4 M_Mse.

(** How many of the 32 bits are set *)
Definition set_bits (n : N) : N := N.of_nat (length (filter (fun k => N.testbit n (N.of_nat k)) (seq 0 32))).
(** What of the reply [p], in clear, rules it out *)
Definition selection (p : bytes) : N := be_val (firstn 4 (skipn 8 p)).
Inductive reply_error (p : bytes) : hs_error -> Prop :=
| re_vc : 8 <= blen p -> firstn 8 p <> zeros 8 -> reply_error p VcNotZero
| re_bits : 12 <= blen p -> firstn 8 p = zeros 8 -> set_bits (selection p) <> 1 -> reply_error p (SelectNotSingle (set_bits (selection p)))
| re_unknown : 12 <= blen p -> firstn 8 p = zeros 8 -> set_bits (selection p) = 1 -> selection p <> 1 -> selection p <> 2 ->
    reply_error p (UnknownMethod (selection p))
| re_plain : 12 <= blen p -> firstn 8 p = zeros 8 -> selection p = 1 -> reply_error p (UnexpectedSelection CPlaintext).
Inductive stops : read_result -> hs_error -> Prop := st_eof : stops REof HDisconnect | st_error : stops RError HRecv.
(** Why the handshake begun at [now] failed, [reads] being what is read *)
Inductive shake_failed (skey : bytes) (secs : N) (key : bytes) (now : N) (reads : script) : hs_error -> Prop :=
| sh_early before t r more e : reads = before ++ (t, r) :: more -> only_data before -> (forall x, In x before -> fst x <= now + ns secs) ->
    t <= now + ns secs -> stops r e -> shake_failed skey secs key now reads e
| sh_length before after : reads = before ++ after -> only_data before -> split_at (now + ns secs) before after ->
    ~ (96 <= blen (data before) <= 608) -> shake_failed skey secs key now reads (Packet2Len (blen (data before)))
| sh_reply before used later e : reads = before ++ used ++ later -> only_data before -> only_data used -> split_at (now + ns secs) before (used ++ later) ->
    96 <= blen (data before) <= 608 ->
    reply_error (fst (rc4_apply (cipher (bs "keyB") (shared (firstn 96 (data before)) (be_val key)) skey) (data used))) e -> shake_failed skey secs key now reads e
| sh_late before used t r more e : reads = before ++ used ++ (t, r) :: more -> only_data before -> only_data used ->
    split_at (now + ns secs) before (used ++ (t, r) :: more) -> 96 <= blen (data before) <= 608 ->
    (let p := fst (rc4_apply (cipher (bs "keyB") (shared (firstn 96 (data before)) (be_val key)) skey) (data used)) in
     ~ wrong_reply p /\ forall padd payload, ~ conforming_reply p padd payload) ->
    stops r e -> shake_failed skey secs key now reads e.
