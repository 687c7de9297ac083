(** The log on standard error: src/main.rs:385-411 init_logging.  The dispatching is fern's, the
    codes of the styles are anstyle's, both as documented.  Simplified: AutoStream::auto
    (main.rs:386) is a flag telling if styles are kept; without them it also removes escape
    sequences inside of a message, so that the plain form is for messages without. *)
From Verif Require Import Base M_Log M_Report.

(** The levels of the crate log, and its LevelFilter ([None]: Off), src/main.rs:45-51 *)
Inductive level := Error | Warn | Info | Debug | Trace.
Definition verbosity (v : level) : N := match v with Error => 1 | Warn => 2 | Info => 3 | Debug => 4 | Trace => 5 end.
Definition filter_verbosity (f : option level) : N := match f with Some v => verbosity v | None => 0 end.
(** src/main.rs:47 default_value *)
Definition default_filter : option level := Some Info.

(** One record: when it is written (hour, minute, second), the module it is from, its level and
    its text *)
Record entry := mkEntry { e_time : N * N * N; e_target : bytes; e_level : level; e_text : bytes }.

(** src/main.rs:404-405: fern's level_for is about the module of that name and those inside of it *)
Definition within (module target : bytes) : bool :=
  bytes_eqb target module || bytes_eqb (firstn (length module + 2) target) (module ++ bs "::").
Definition shown (f : option level) (e : entry) : bool :=
  verbosity (e_level e) <=? (if within (bs "demagnetize") (e_target e) then filter_verbosity f else verbosity Info).

(** src/main.rs:390-396 *)
Definition esc (code : bytes) : bytes := x1b :: bs "[" ++ code ++ bs "m".
Definition style (v : level) : bytes :=
  match v with
  | Error => esc (bs "31")
  | Warn => esc (bs "33")
  | Info => esc (bs "1")
  | Debug => esc (bs "36")
  | Trace => esc (bs "32")
  end.
Definition reset : bytes := esc (bs "0").
(** chrono's %H, %M and %S: two digits, src/main.rs:400 *)
Definition digit (n : N) : byte := n2b (48 + n mod 10).
Definition two (n : N) : bytes := [digit (n / 10); digit n].
Definition clock (t : N * N * N) : bytes := let '(h, m, s) := t in two h ++ bs ":" ++ two m ++ bs ":" ++ two s.
Definition level_name (v : level) : bytes :=
  match v with Error => bs "ERROR" | Warn => bs "WARN" | Info => bs "INFO" | Debug => bs "DEBUG" | Trace => bs "TRACE" end.
(** {:<5} *)
Definition pad5 (t : bytes) : bytes := t ++ repeat " "%byte (5 - length t).
(** src/main.rs:397-403, and the line break fern adds *)
Definition entry_line (styled : bool) (e : entry) : bytes :=
  (if styled then style (e_level e) else []) ++ clock (e_time e) ++ bs " [" ++ pad5 (level_name (e_level e)) ++ bs "] " ++ e_text e ++ (if styled then reset else []) ++ [x0a].
(** What a run that writes the records [l] puts on standard error *)
Definition stderr (styled : bool) (f : option level) (l : list entry) : bytes :=
  flat_map (entry_line styled) (filter (shown f) l).

(** The levels of the records of M_Log, by the macros at the places cited there *)
Definition record_level (r : record) : level :=
  match r with
  | LShake _ _ | LReceived _ _ | LSending _ _ | LRejecting _ _ | LSelected _ _ => Trace
  | LFallback _ _ => Warn
  | LPeerFailed _ _ _ _ => Warn
  | LPeerError _ _ => Error
  | LMetadata _ _ => Info
  | LCount _ _ _ => Info
  | LPeers _ _ _ => Debug
  | LWarning _ _ _ => Trace
  | LTrackerFailed _ _ _ _ => Warn
  | LTrackerError _ _ => Error
  | LStopFailed _ _ _ _ => Warn
  | LNodeReply _ _ _ _ _ => Debug
  | LNodeError _ _ _ => Warn
  | LNodeInvalid _ _ _ _ => Warn
  | LSaving _ _ => Info
  end.
(** The modules they are from *)
Definition record_target (r : record) : bytes :=
  match r with
  | LShake _ _ | LReceived _ _ | LSending _ _ | LRejecting _ _ | LFallback _ _ | LMetadata _ _ => bs "demagnetize::peer"
  | LSelected _ _ => bs "demagnetize::peer::msepe"
  | LPeerFailed _ _ _ _ | LTrackerFailed _ _ _ _ => bs "demagnetize::magnet"
  | LPeerError _ _ | LTrackerError _ _ => bs "demagnetize"
  | LCount _ _ _ | LPeers _ _ _ | LWarning _ _ _ | LStopFailed _ _ _ _ => bs "demagnetize::tracker"
  | LNodeReply _ _ _ _ _ | LNodeError _ _ _ | LNodeInvalid _ _ _ _ => bs "demagnetize::dht::actor"
  | LSaving _ _ => bs "demagnetize::torrent"
  end.
Definition record_entry (plain : N -> bool) (tr : N * N * N * record) : entry :=
  mkEntry (fst tr) (record_target (snd tr)) (record_level (snd tr)) (record_text plain (snd tr)).

(** The levels and the modules of the records of M_Report: src/magnet.rs:36, :56, :94,
    src/main.rs:228; src/main.rs:238, :243, :256, :274 *)
Definition gnote_level {E} (n : gnote E) : level := match n with Fetching => Info | Note _ => Warn | Failed _ => Error end.
Definition gnote_target {E} (n : gnote E) : bytes := match n with Failed _ => bs "demagnetize" | _ => bs "demagnetize::magnet" end.
Definition bnote_level {Mg E} (n : bnote Mg E) : level :=
  match n with Unreadable _ => Error | NoLinks => Info | LinkFailed _ _ => Error | Summary _ _ => Info end.
(** [e] is a record of that level and module, written at some time with some text *)
Definition is_entry (target : bytes) (v : level) (e : entry) : Prop := e_target e = target /\ e_level e = v.
