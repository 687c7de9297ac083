(** Specification vocabulary for the query commands' output. *)
From Verif Require Import Base M_Net M_Tracker S_IpText S_Json S_Utf8 S_Lossy S_SockText.

(** [out] consists of these lines, each ended by a line feed. *)
Definition lines_of (out : bytes) (lines : list bytes) : Prop :=
  out = concat (map (fun l => l ++ [x0a]) lines) /\ Forall (fun l => ~ In x0a l) lines.
(** A line of query-tracker's and query-dht's output: the address as text *)
Definition plain_line (line : bytes) (p : peer) : Prop := sockaddr_text line (pr_addr p) 0.
(** with --json: an object with these members, in printable ASCII *)
Definition json_line (line : bytes) (p : peer) : Prop :=
  printable line /\
  exists host id, address_text host (sa_ip (pr_addr p)) /\
    match pr_id p with Some i => exists cs, lossy i cs /\ id = JStr cs | None => id = JNull end /\
    json_parse (map b2n line) =
      Some (JObj [(code "host", JStr (map b2n host)); (code "port", JNum (sa_port (pr_addr p))); (code "id", id);
                  (code "requires_crypto", JBool (pr_crypto p))]).
(** [out] lists [peers], in order. *)
Definition lists (json : bool) (out : bytes) (peers : list peer) : Prop :=
  exists lines, lines_of out lines /\ Forall2 (if json then json_line else plain_line) lines peers.
