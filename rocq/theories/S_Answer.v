(** Specification vocabulary: a peer that answers requests for metadata. *)
From Verif Require Import Base S_Bencode S_Download M_Torrent M_Messages M_Peer.

(** The piece the client has asked for and not yet been sent, and the number of messages
    received since it asked. *)
Definition awaiting (h : list wire) : option (N * nat) :=
  fold_left (fun a x => match x with
                        | Sent (Meta (MRequest i)) => Some (i, 0%nat)
                        | Sent _ => a
                        | Recv (Ok (Meta (MData _ _ _))) => None
                        | Recv _ => option_map (fun q => (fst q, S (snd q))) a
                        end) h None.
(** A peer that has [data] and answers each request for a piece with that piece, after at
    most [k] other messages; [peer h]: what it sends after the exchange [h]. *)
Definition answers (data : bytes) (k : nat) (peer : list wire -> message) : Prop :=
  forall h i n, awaiting h = Some (i, n) -> 16384 * i < blen data ->
    peer h = Meta (MData i (blen data) (slice data i)) \/ ((n < k)%nat /\ harmless (peer h)).
(** The first [n] messages it sends to the client *)
Fixpoint conversation (ih : bytes) (size : N) (peer : list wire -> message) (n : nat) : list event :=
  match n with
  | O => []
  | S n' => let evs := conversation ih size peer n' in evs ++ [Ok (peer (snd (get_metadata_info ih (Some size) evs)))]
  end.
