(** Property C03 for a peer that reacts to what it is asked.  Specification: S_Answer. *)
From Verif Require Import Base S_Bencode S_Download S_Answer M_Sha1 M_Torrent M_Messages M_Peer P_Download P_Answer.

(** A peer that answers each request for a piece with that piece, after at most [k] harmless
    messages, is enough: after finitely many of its messages the metadata is complete. *)
Theorem C03_answering_peer_suffices : forall ih data k peer,
  bencoded_dict data -> sha1 data = ih -> blen data <= 20971520 ->
  answers data k peer ->
  exists n tr, get_metadata_info ih (Some (blen data)) (conversation ih (blen data) peer n) = (Finished (Ok (mkTI ih data)), tr).
Proof. exact answering_suffices. Qed.
Print Assumptions C03_answering_peer_suffices.
Example C03_answering_nonvacuous : bencoded_dict ex_data /\ blen ex_data <= 20971520 /\ answers ex_data 1 ex_peer.
Proof. exact (conj (proj1 ex_honest) (conj (proj1 (proj2 ex_honest)) ex_peer_answers)). Qed.
