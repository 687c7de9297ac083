(** Specification: configuration settings (README.md, "Configuration"). *)
From Verif Require Import Base S_Utf8 S_Magnet M_Net M_Tracker M_Session M_Config.

(** A port number in decimal; a plus sign is tolerated. *)
Definition port_number (s : bytes) (n : N) : Prop :=
  exists ds, (s = ds \/ s = "+"%byte :: ds) /\ ds <> [] /\ Forall (fun b => is_digit b = true) ds /\
    digits_val ds = n /\ n < 65536.
(** A port number, as an integer or a string of digits, or two port numbers in order,
    separated by a hyphen and optional white space. *)
Definition local_port_text (v : toml) (lp : local_port) : Prop :=
  match lp with
  | Constant n => n < 65536 /\ (v = TInt (Z.of_N n) \/ exists s, v = TStr s /\ Forall (fun b => is_digit b = true) s /\ port_number s n)
  | Range low high => low <= high /\ high < 65536 /\
      exists a b a' b', v = TStr (a ++ "-"%byte :: b) /\ ~ In "-"%byte a /\
        trimmed a a' /\ trimmed b b' /\ port_number a' low /\ port_number b' high
  end.
Definition in_range (lp : local_port) (p : N) : Prop :=
  match lp with Constant c => p = c | Range low high => low <= p <= high end.

Definition positive (bits : N) (v : toml) (n : N) : Prop := v = TInt (Z.of_N n) /\ 0 < n /\ n < 2 ^ bits.
Definition seconds (v : toml) (n : N) : Prop := v = TInt (Z.of_N n) /\ n < 2 ^ 64.
Definition preference (v : toml) (p : crypto_pref) : Prop :=
  v = TStr (match p with CPAlways => bs "always" | CPPrefer => bs "prefer" | CPIfRequired => bs "if-required" | CPNever => bs "never" end).
Definition node_text (parse_host : bytes -> option url_host) (s : bytes) (a : inet_addr) : Prop :=
  exists host port, s = host ++ ":"%byte :: port /\ ~ In ":"%byte port /\
    parse_host host = Some (ia_host a) /\ port_number port (ia_port a).
Definition nodes (parse_host : bytes -> option url_host) (v : toml) (l : list inet_addr) : Prop :=
  l <> [] /\ exists vs, v = TArr vs /\ Forall2 (fun v a => exists s, v = TStr s /\ node_text parse_host s a) vs l.

(** Setting [key] of table [sec] has value [x]: the one given, else the default. *)
Definition says {A} (doc : table) (sec key : bytes) (R : toml -> A -> Prop) (dflt x : A) : Prop :=
  (exists d v, In (sec, TTable d) doc /\ In (key, v) d /\ R v x) \/
  ((~ In sec (map fst doc) \/ exists d, In (sec, TTable d) doc /\ ~ In key (map fst d)) /\ x = dflt).
(** A TOML document: distinct keys, and strings are Unicode text. *)
Definition toml_doc (doc : table) : Prop :=
  NoDup (map fst doc) /\ forall k d, In (k, TTable d) doc -> NoDup (map fst d) /\ forall k' s, In (k', TStr s) d -> is_text s.
Definition is_table (doc : table) (sec : bytes) : Prop := forall v, In (sec, v) doc -> exists d, v = TTable d.

Definition settings (parse_host : bytes -> option url_host) (boot : list inet_addr) (doc : table) (c : config) : Prop :=
  (is_table doc (bs "general") /\ is_table doc (bs "trackers") /\ is_table doc (bs "peers") /\ is_table doc (bs "dht")) /\
  says doc (bs "general") (bs "batch-jobs") (positive 64) 50 (c_batch_jobs c) /\
  says doc (bs "general") (bs "encrypt") preference CPPrefer (c_encrypt c) /\
  says doc (bs "trackers") (bs "local-port") local_port_text (Range 1025 65535) (c_local_port c) /\
  says doc (bs "trackers") (bs "numwant") (positive 32) 50 (c_numwant c) /\
  says doc (bs "trackers") (bs "jobs-per-magnet") (positive 64) 30 (c_tracker_jobs c) /\
  says doc (bs "trackers") (bs "announce-timeout") seconds 30 (c_announce_timeout c) /\
  says doc (bs "trackers") (bs "shutdown-timeout") seconds 3 (c_shutdown_timeout c) /\
  says doc (bs "peers") (bs "jobs-per-magnet") (positive 64) 30 (c_peer_jobs c) /\
  says doc (bs "peers") (bs "handshake-timeout") seconds 60 (c_handshake_timeout c) /\
  says doc (bs "peers") (bs "dh-exchange-timeout") seconds 30 (c_dh_timeout c) /\
  says doc (bs "dht") (bs "bootstrap-nodes") (nodes parse_host) boot (c_bootstrap c) /\
  says doc (bs "dht") (bs "query-timeout") seconds 2 (c_query_timeout c).
(** No settings at all. *)
Definition all_default (parse_host : bytes -> option url_host) (boot : list inet_addr) (c : config) : Prop :=
  settings parse_host boot [] c.
(** File [p] exists, is a TOML document and its settings give [c]. *)
Definition file_gives (parse_host : bytes -> option url_host) (parse_toml : bytes -> option table) (fs : files)
  (boot : list inet_addr) (p : bytes) (c : config) : Prop :=
  exists content doc, fs p = Ok content /\ parse_toml content = Some doc /\ settings parse_host boot doc c.
