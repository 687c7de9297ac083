(** Specification: what the log of an exchange with the peer [p] tells. *)
From Verif Require Import Base M_Net M_Messages M_Peer M_Session M_Log.

Definition of_peer (p : sockaddr) (x : record) : Prop :=
  match x with LShake q _ | LReceived q _ | LSending q _ | LRejecting q _ | LMetadata _ q => q = p | _ => False end.
(** The messages it says are sent, and received *)
Definition sent_of (g : list record) : list message := flat_map (fun x => match x with LSending _ m => [m] | _ => [] end) g.
Definition received_of (g : list record) : list message := flat_map (fun x => match x with LReceived _ m => [m] | _ => [] end) g.
(** Every request of the peer is refused at once, unless the exchange is over; nothing else is refused. *)
Definition plain (x : record) : Prop :=
  match x with LReceived _ (Meta (MRequest _)) | LSending _ (Meta (MReject _)) | LRejecting _ _ => False | _ => True end.
Inductive refusing (p : sockaddr) : list record -> Prop :=
| rf_nil : refusing p []
| rf_over i : refusing p [LReceived p (Meta (MRequest i))]
| rf_refused i g : refusing p g -> refusing p (LReceived p (Meta (MRequest i)) :: LRejecting p i :: LSending p (Meta (MReject i)) :: g)
| rf_plain x g : plain x -> refusing p g -> refusing p (x :: g).
(** The exchange has not ended, or only because the peer closed the connection or it broke *)
Definition left_by_peer {A} (s : stage A) : Prop :=
  match s with SWaiting | SDone (Err Disconnect) | SDone (Err ERecv) => True | _ => False end.
(** Errors for which a message is to blame, and that message *)
Definition has_blame (x : peer_error) : Prop :=
  match x with Unexpected _ | InfoRequestRejected _ | WrongPiece _ _ | SizeMismatch _ _ | InfoPush _ | NoExtendedHandshake => True | _ => False end.
Definition blamed (x : peer_error) (m : message) : Prop :=
  match x with
  | Unexpected m' => m = m'
  | InfoRequestRejected k => m = Meta (MReject k)
  | WrongPiece asked k => k <> asked /\ (m = Meta (MReject k) \/ exists total d, m = Meta (MData k total d))
  | SizeMismatch told total => total <> told /\ exists k d, m = Meta (MData k total d)
  | InfoPush _ => exists k total d, m = Meta (MData k total d)
  | NoExtendedHandshake => forall h, m <> ExtHandshake h
  | _ => False
  end.
