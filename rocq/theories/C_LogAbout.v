(** Property C111, continued: what each record tells.  Specification: S_LogAbout. *)
From Verif Require Import Base M_Net M_Tracker M_DhtMsg M_Messages M_Mse M_Log S_Log S_LogAbout P_LogAbout.

(** No two events give the same record: from it one can tell what happened, the peer, tracker or
    DHT node, the torrent (name and hash), and the contents. *)
Theorem C111_records : forall plain r r', wf_record r -> wf_record r' ->
  record_text plain r = record_text plain r' -> tells_same r r'.
Proof. exact records. Qed.
Print Assumptions C111_records.
Example C111_records_nonvacuous :
  let s := mkSubject (Some (bs "a ""b""")) (repeat xab 20) in let p := mkSA (V4 1) 80 in
  Forall wf_record [LMetadata s p; LCount (bs "udp://t:1/") s [p; p]; LNodeReply None p 1 2 (repeat xab 20); LSaving s (bs "x.torrent")] /\
  record_text (fun c => andb (31 <? c) (c <? 127)) (LNodeReply (Some (repeat xcd 20)) p 1 2 (repeat xab 20)) =
    bs "DHT node cdcdcdcdcdcdcdcdcdcdcdcdcdcdcdcdcdcdcdcd at 0.0.0.1:80 replied with 1 peer(s) and 2 node(s) for info hash abababababababababababababababababababab" /\
  record_text (fun c => andb (31 <? c) (c <? 127)) (LCount (bs "udp://t:1/") s [p; p]) =
    bs "<Tracker udp://t:1/> returned 2 peers for ""a \""b\"""" (abababababababababababababababababababab)".
Proof.
  cbv zeta. split; [|vm_compute; auto].
  assert (S : wf_subject (mkSubject (Some (bs "a ""b""")) (repeat xab 20))).
  { split; [reflexivity|]. intros n [= <-]. exists (map b2n (bs "a ""b""")). split; [apply Forall_forall; intros c C; cbn in C; intuition (subst; left; reflexivity)|reflexivity]. }
  assert (A : wf_sa (mkSA (V4 1) 80)) by (split; reflexivity).
  constructor; [split; assumption|]. constructor; [split; [intros X; cbn in X; intuition discriminate|assumption]|].
  constructor; [split; [split; [discriminate|exact A]|reflexivity]|]. constructor; [exact S|constructor].
Qed.
