(** Specification: what a log record tells. *)
From Verif Require Import Base S_Magnet M_Net M_Tracker M_DhtMsg M_Messages M_Log S_Log.

(** What the record is about: a URL without ">" (no URL has one), hashes and node ids of 20 bytes, names and
    messages that are Unicode text, and addresses. *)
Definition wf_subject (s : subject) : Prop := length (s_hash s) = 20%nat /\ forall n, s_name s = Some n -> is_text n.
Definition wf_url (u : bytes) : Prop := ~ In ">"%byte u.
Definition wf_node (id : option bytes) (a : sockaddr) : Prop := (forall i, id = Some i -> length i = 20%nat) /\ wf_sa a.
Definition wf_record (r : record) : Prop :=
  match r with
  | LShake p _ | LRejecting p _ | LSelected p _ | LFallback p _ => wf_sa p
  | LReceived p m | LSending p m => wf_sa p /\ readable m
  | LPeerFailed s p _ _ | LMetadata s p => wf_subject s /\ wf_sa p
  | LPeerError _ _ | LTrackerError _ _ => True
  | LCount u s _ | LTrackerFailed u s _ _ | LStopFailed u s _ _ => wf_url u /\ wf_subject s
  | LPeers u s l => wf_url u /\ wf_subject s /\ Forall wf_sa l
  | LWarning u s msg => wf_url u /\ wf_subject s /\ is_text msg
  | LNodeReply id a _ _ ih => wf_node id a /\ length ih = 20%nat
  | LNodeError id a e => wf_node id a /\ is_text (er_message e)
  | LNodeInvalid id a _ _ => wf_node id a
  | LSaving s _ => wf_subject s
  end.
(** The records tell of the same event: with the same peer, tracker or DHT node, for the same
    torrent, and with the same content (the reasons of failures: S_LogReason). *)
Definition tells_same (r r' : record) : Prop :=
  match r, r' with
  | LShake p g, LShake q h => p = q /\ hs_ext g = hs_ext h /\ hs_pid g = hs_pid h
  | LReceived p a, LReceived q b | LSending p a, LSending q b => p = q /\ same_msg a b
  | LRejecting p i, LRejecting q j => p = q /\ i = j
  | LSelected p m, LSelected q n => p = q /\ m = n
  | LFallback p _, LFallback q _ => p = q
  | LPeerFailed s p _ _, LPeerFailed t q _ _ | LMetadata s p, LMetadata t q => s = t /\ p = q
  | LPeerError _ _, LPeerError _ _ | LTrackerError _ _, LTrackerError _ _ => True
  | LCount u s l, LCount v t k => u = v /\ s = t /\ length l = length k
  | LPeers u s l, LPeers v t k => u = v /\ s = t /\ l = k
  | LWarning u s m, LWarning v t n => u = v /\ s = t /\ m = n
  | LTrackerFailed u s _ _, LTrackerFailed v t _ _ | LStopFailed u s _ _, LStopFailed v t _ _ => u = v /\ s = t
  | LNodeReply i a n k h, LNodeReply j b n' k' h' => i = j /\ a = b /\ n = n' /\ k = k' /\ h = h'
  | LNodeError i a e, LNodeError j b f => i = j /\ a = b /\ er_code e = er_code f /\ er_message e = er_message f
  | LNodeInvalid i a _ _, LNodeInvalid j b _ _ => i = j /\ a = b
  | LSaving s p, LSaving t q => s = t /\ p = q
  | _, _ => False
  end.
