(** Specification: what a trace of a UDP tracker session must look like. *)
From Verif Require Import Base M_Tracker M_Udp S_Wire S_Udp.

(** [l] consists of repetitions of the packet [m]. *)
Definition repeats (m : bytes) (l : list uobs) : Prop := Forall (fun o => exists t, o = OSent t m) l.

(** A connection id obtained at time [t]: a connect request was sent (perhaps
    repeatedly) and the next packet received was a reply to it, giving [cid]. *)
Definition obtained (tr : list uobs) (cid t : N) : Prop :=
  exists pre t1 req txn again d post,
    tr = pre ++ OSent t1 req :: again ++ OReceived t d :: post /\
    connect_packet txn req /\ repeats req again /\ connect_reply d txn cid.

(** The most recent call announced [a]. *)
Definition last_call (tr : list uobs) (a : announcement) : Prop :=
  exists pre t post, tr = pre ++ OCalled t a :: post /\ forall t' a', ~ In (OCalled t' a') post.

(** [tr] justifies [resp]: the last thing that happened is the receipt of a reply
    that carries the transaction id of the announce request sent (perhaps repeatedly)
    just before it for the most recent call, under a connection id obtained before. *)
Definition justified (urldata : bytes) (v6 : bool) (tr : list uobs) (resp : announce_response) : Prop :=
  exists pre t1 req cid txn a again t d,
    tr = pre ++ OSent t1 req :: again ++ [OReceived t d] /\
    announce_packet cid txn a urldata req /\ repeats req again /\
    announce_reply v6 d txn resp /\
    (exists t0, obtained pre cid t0) /\ last_call pre a.

(** Inputs that can occur: ids are 32-bit, announcements fit their fields. *)
Definition input_ok (i : uinput) : Prop :=
  ui_txn i < 2 ^ 32 /\ match ui_what i with InAnnounce a => ann_ok a | _ => True end.

(** A call of [announce] has not returned. *)
Definition outstanding (st : usession) : Prop := us_phase st <> UIdle.

(** Timers running in a state. *)
Definition pending (st : usession) (deadline : N) : Prop :=
  match us_phase st with
  | UIdle => False
  | UConnecting _ _ n sent _ => deadline = sent + wait_time n
  | UAnnouncing cx _ _ n sent _ => deadline = sent + wait_time n \/ deadline = cx_expires cx
  end.
(** Time does not go back, and the task is woken at most [slack] after a running
    timer is due ([slack] 0: ideal timers). *)
Fixpoint prompt (urldata : bytes) (v6 : bool) (slack now : N) (st : usession) (is : list uinput) : Prop :=
  match is with
  | [] => True
  | i :: is' =>
      now <= ui_at i /\ (forall D, pending st D -> ui_at i <= D + slack) /\
      prompt urldata v6 slack (ui_at i) (fst (ustep urldata v6 st i)) is'
  end.

(** Times are in nanoseconds. *)
Definition second : N := 1000000000.
(** BEP 15: the [k]-th wait is 15 * 2^k seconds, [k] at most 8. *)
Definition bep15_wait (k : nat) : N := 15 * 2 ^ N.of_nat (Nat.min k 8) * second.
(** Sending times whose gaps, from the [k]-th on, follow this. *)
Fixpoint spaced (slack : N) (k : nat) (ts : list N) : Prop :=
  match ts with
  | t :: ((t' :: _) as r) => t + bep15_wait k <= t' <= t + bep15_wait k + slack /\ spaced slack (S k) r
  | _ => True
  end.
Definition sent_at (m : bytes) (ts : list N) : list uobs := map (fun t => OSent t m) ts.
