(** Specification: how a query to a tracker ends, and why, as a statement about what the
    network does in the course of it.  Uses only the types of the model, none of its functions. *)
From Verif Require Import Base S_Bencode M_Utf8 M_Net M_Util M_Session M_Tracker M_Udp M_Http M_Announce S_Wire S_Udp S_UdpSession S_Http S_Announce.

(** ** UDP.  What the client waits for: a reply to a connect request; a reply to an announce
    request, while the connection has not expired *)
Inductive awaited := ToConnect (txn : N) | ToAnnounce (txn expires : N).
(** The packet [d] has too few bytes for what its action, its first four bytes, says. *)
Definition truncated (w : awaited) (v6 : bool) (d : bytes) : Prop :=
  (length d < 4)%nat \/ (first_word d 3 /\ (length d < 8)%nat) \/
  match w with
  | ToConnect _ => first_word d 0 /\ (length d < 16)%nat
  | ToAnnounce _ _ => first_word d 1 /\ ((length d < 20)%nat \/ ((length d - 20) mod (if v6 then 18 else 6) <> 0)%nat)
  end.
(** The packet [d] is not the reply, and why. *)
Inductive misfit (v6 : bool) (d : bytes) : awaited -> udp_error -> Prop :=
| mf_failure w raw : error_reply d raw -> misfit v6 d w (UFailure (from_utf8_lossy raw))
| mf_length w : truncated w v6 d -> misfit v6 d w (UPacketLen Short)
| mf_connect txn x : first_word d x -> x <> 0 -> x <> 3 -> misfit v6 d (ToConnect txn) (UBadAction 0 x)
| mf_announce txn e x : first_word d x -> x <> 1 -> x <> 3 -> misfit v6 d (ToAnnounce txn e) (UBadAction 1 x)
| mf_connect_txn txn txn' cid : connect_reply d txn' cid -> txn' <> txn -> misfit v6 d (ToConnect txn) (UXactionMismatch txn txn')
| mf_announce_txn txn e txn' r : announce_reply v6 d txn' r -> txn' <> txn -> misfit v6 d (ToAnnounce txn e) (UXactionMismatch txn txn').

(** [ends v6 w k sent is t x]: the request was sent for the [k]th time again at time [sent];
    in the course of [is] the query ends, at time [t], with [x]. *)
Inductive ends (v6 : bool) : awaited -> nat -> N -> list uinput -> N -> res udp_error announce_response -> Prop :=
| en_idle w k sent i is t x : (forall d, ui_what i <> InRecv d) -> (ui_what i = InTimer -> ui_at i < sent + bep15_wait k) ->
    (ui_what i = InExpiry -> forall txn e, w = ToAnnounce txn e -> ui_at i < e) ->
    ends v6 w k sent is t x -> ends v6 w k sent (i :: is) t x
| en_again w k sent i is t x : ui_what i = InTimer -> sent + bep15_wait k <= ui_at i -> ui_send i = true ->
    ends v6 w (S k) (ui_at i) is t x -> ends v6 w k sent (i :: is) t x
| en_again_fails w k sent i is : ui_what i = InTimer -> sent + bep15_wait k <= ui_at i -> ui_send i = false ->
    ends v6 w k sent (i :: is) (ui_at i) (Err USend)
| en_expired txn e k sent i is t x : ui_what i = InExpiry -> e <= ui_at i -> ui_send i = true ->
    ends v6 (ToConnect (ui_txn i)) 0 (ui_at i) is t x -> ends v6 (ToAnnounce txn e) k sent (i :: is) t x
| en_expired_fails txn e k sent i is : ui_what i = InExpiry -> e <= ui_at i -> ui_send i = false ->
    ends v6 (ToAnnounce txn e) k sent (i :: is) (ui_at i) (Err USend)
| en_connected txn cid d k sent i is t x : ui_what i = InRecv (Some d) -> connect_reply d txn cid -> ui_send i = true ->
    ends v6 (ToAnnounce (ui_txn i) (ui_at i + 60 * second)) 0 (ui_at i) is t x -> ends v6 (ToConnect txn) k sent (i :: is) t x
| en_connected_fails txn cid d k sent i is : ui_what i = InRecv (Some d) -> connect_reply d txn cid -> ui_send i = false ->
    ends v6 (ToConnect txn) k sent (i :: is) (ui_at i) (Err USend)
| en_announced txn e d r k sent i is : ui_what i = InRecv (Some d) -> announce_reply v6 d txn r ->
    ends v6 (ToAnnounce txn e) k sent (i :: is) (ui_at i) (Ok r)
| en_misfit w d y k sent i is : ui_what i = InRecv (Some d) -> misfit v6 d w y -> ends v6 w k sent (i :: is) (ui_at i) (Err y)
| en_receive w k sent i is : ui_what i = InRecv None -> ends v6 w k sent (i :: is) (ui_at i) (Err URecv).

(** The tracker's name, its first address and the socket *)
Inductive udp_concludes (u : udp_url) (n : net) : N -> res udp_error announce_response -> Prop :=
| uc_name t b c : n_socket n (uu_host u) (uu_port u) = Some (t, (None, b, c)) -> udp_concludes u n t (Err ULookup)
| uc_no_address t b c : n_socket n (uu_host u) (uu_port u) = Some (t, (Some [], b, c)) -> udp_concludes u n t (Err UNoResolve)
| uc_bind t a l c : n_socket n (uu_host u) (uu_port u) = Some (t, (Some (a :: l), false, c)) -> udp_concludes u n t (Err UBind)
| uc_connect t a l : n_socket n (uu_host u) (uu_port u) = Some (t, (Some (a :: l), true, false)) -> udp_concludes u n t (Err UConnect)
| uc_send t a l : n_socket n (uu_host u) (uu_port u) = Some (t, (Some (a :: l), true, true)) -> n_send n = false -> udp_concludes u n t (Err USend)
| uc_ends t0 a l (v6 : bool) t x : n_socket n (uu_host u) (uu_port u) = Some (t0, (Some (a :: l), true, true)) -> (if v6 then ~ is_v4 a else is_v4 a) -> n_send n = true ->
    ends v6 (ToConnect (n_txn n)) 0 t0 (n_inputs n) t x -> udp_concludes u n t x.

(** ** HTTP: the request is for the URL [v] *)
Inductive http_concludes (n : net) (v : url) : N -> res tracker_error announce_response -> Prop :=
| hc_client : n_client n = false -> http_concludes n v 0 (Err (TEHttp HEClient))
| hc_send t : n_client n = true -> n_reply n v = Some (t, RNoResponse) -> http_concludes n v t (Err (TEHttp HESend))
| hc_status t status b : n_client n = true -> n_reply n v = Some (t, RResponse status b) -> 400 <= status < 600 -> http_concludes n v t (Err (TEHttp (HEStatus status)))
| hc_body t status : n_client n = true -> n_reply n v = Some (t, RResponse status None) -> ~ 400 <= status < 600 -> http_concludes n v t (Err (TEHttp HEBody))
| hc_parse t status b : n_client n = true -> n_reply n v = Some (t, RResponse status (Some b)) -> ~ 400 <= status < 600 ->
    (forall d, b = encode (VDict d) -> canonical (VDict d) -> (depth (VDict d) <= 2048)%nat -> (forall r, ~ http_success d r) /\ (forall m, ~ http_failure d m)) ->
    http_concludes n v t (Err (TEHttp HEParse))
| hc_failure t d m : responds n v t d -> http_failure d m -> http_concludes n v t (Err (TEFailure m))
| hc_success t d r : responds n v t d -> http_success d r -> http_concludes n v t (Ok r).

(** ** Either; [v]: the URL, for HTTP *)
Definition puts (tr : tracker) (a : announcement) (v : url) : Prop := match tr with THttp u => asks u a v | TUdp _ => True end.
Inductive concludes (n : net) (v : url) : tracker -> N -> res tracker_error announce_response -> Prop :=
| cc_http u t x : http_concludes n v t x -> concludes n v (THttp u) t x
| cc_udp u t r : udp_concludes u n t (Ok r) -> concludes n v (TUdp u) t (Ok r)
| cc_udp_failure u t m : udp_concludes u n t (Err (UFailure m)) -> concludes n v (TUdp u) t (Err (TEFailure m))
| cc_udp_error u t e : udp_concludes u n t (Err e) -> (forall m, e <> UFailure m) -> concludes n v (TUdp u) t (Err (TEUdp e)).
