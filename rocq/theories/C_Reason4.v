(** Property C104: why a query to a tracker failed.  Specification: S_Reason4 (with S_Udp,
    S_Http, S_Announce).  [s]: what is announced; [n]: whatever the network does; [limit]:
    announce-timeout. *)
From Verif Require Import Base BaseFacts S_Bencode M_Utf8 M_Net M_Util M_Session M_Tracker M_Udp M_Http M_Mse M_Announce S_Wire S_Udp S_UdpSession S_Http S_Announce S_Reason4 P_Udp P_Http P_Announce P_Reason6.

(** What is reported, and when, is how the query ended; a timeout is reported at the end of
    the time allowed, and only if the query had not ended by then. *)
Theorem C104_reason : forall limit s tr n made stop t x, in_order n -> tracker_query limit s tr n = (made, stop, t, x) ->
  exists v, puts tr (start_announcement s) v /\
    match x with
    | Ok ps => t <= limit /\ exists r, concludes n v tr t (Ok r) /\ ps = ar_peers r
    | Err (GInner e) => t <= limit /\ concludes n v tr t (Err e)
    | Err GTimeout => t = limit /\ forall t' y, concludes n v tr t' y -> limit < t'
    end.
Proof. exact query_reason. Qed.
Print Assumptions C104_reason.
(** A query ends in one way only. *)
Theorem C104_one_end : forall n v tr t x t' x', concludes n v tr t x -> concludes n v tr t' x' -> t = t' /\ x = x'.
Proof. exact one_end. Qed.
Print Assumptions C104_one_end.
(** However the request is put: if the query ends in time, this is reported. *)
Theorem C104_reported : forall limit s tr n t x, in_order n -> (forall v, puts tr (start_announcement s) v -> concludes n v tr t x) -> t <= limit ->
  exists made stop, tracker_query limit s tr n = (made, stop, t, match x with Ok r => Ok (ar_peers r) | Err e => Err (GInner e) end).
Proof. exact query_concluded. Qed.
Print Assumptions C104_reported.
Theorem C104_timeout : forall limit s tr n, in_order n -> (forall v t x, puts tr (start_announcement s) v -> concludes n v tr t x -> limit < t) ->
  exists made, tracker_query limit s tr n = (made, None, limit, Err GTimeout).
Proof. exact query_silent. Qed.
Print Assumptions C104_timeout.

(** Networks: the tracker's first packet carries a wrong transaction id; the HTTP response is
    an error; its body is no dictionary; the second sending of the connect request fails *)
Definition ex_net4 (status : N) (body : bytes) (packet : bytes) (resend : bool) := mkNet true (fun v => Some (ns 2, RResponse status (Some body)))
  (fun host port => Some (ns 1, (Some [mkSA (V4 7) port], true, true))) 5 true
  [mkIn (ns 15) InTimer 0 true; mkIn (ns 16) InTimer 0 resend; mkIn (ns 20) (InRecv (Some packet)) 6 true].
Lemma ex_order4 status body packet resend : in_order (ex_net4 status body packet resend).
Proof. intros host port t0 x [= <- _]. repeat constructor; vm_compute; discriminate. Qed.
Example C104_nonvacuous : forall u v h,
  let wrong := be_bytes 4 0 ++ be_bytes 4 7 ++ be_bytes 8 99 in
  let failure := be_bytes 4 3 ++ be_bytes 4 5 ++ bs "no" in
  concludes (ex_net4 200 [] wrong true) v (TUdp u) (ns 20) (Err (TEUdp (UXactionMismatch 5 7))) /\
  concludes (ex_net4 200 [] failure true) v (TUdp u) (ns 20) (Err (TEFailure (bs "no"))) /\
  concludes (ex_net4 200 [] [] true) v (TUdp u) (ns 20) (Err (TEUdp (UPacketLen Short))) /\
  concludes (ex_net4 200 [] wrong false) v (TUdp u) (ns 16) (Err (TEUdp USend)) /\
  concludes (ex_net4 404 [] wrong true) v (THttp h) (ns 2) (Err (TEHttp (HEStatus 404))) /\
  concludes (ex_net4 200 (bs "i1e") wrong true) v (THttp h) (ns 2) (Err (TEHttp HEParse)) /\
  concludes (ex_net4 200 (bs "d14:failure reason2:noe") wrong true) v (THttp h) (ns 2) (Err (TEFailure (bs "no"))).
Proof.
  intros u v h wrong failure. repeat match goal with |- _ /\ _ => split end; apply the_end_iff; vm_compute; reflexivity.
Qed.
