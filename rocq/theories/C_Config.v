(** Properties C71, C72, C83: configuration.  Specification: S_Config (the README's
    "Configuration" section).  [parse_host] is crate url's host parser and [parse_toml]
    crate toml's parser; both are arbitrary except that documents have distinct keys and
    Unicode strings. *)
From Verif Require Import Base S_Utf8 M_Utf8 S_Magnet P_Magnet M_Net M_Tracker M_Session M_Config S_Config P_Config.

(** The accepted local-port settings. *)
Theorem C71_accepted : forall v lp, (forall s, v = TStr s -> is_text s) ->
  (as_local_port v = Some lp <-> local_port_text v lp).
Proof. exact as_local_port_iff. Qed.
Print Assumptions C71_accepted.

(** Choosing a port never panics, whatever the random number, and stays in the range. *)
Theorem C71_usable : forall v lp draw, (forall s, v = TStr s -> is_text s) -> as_local_port v = Some lp ->
  exists p, generate lp draw = Ret p /\ in_range lp p /\ p < 65536.
Proof. exact generate_ok. Qed.
Print Assumptions C71_usable.

(** Every port of the range, ends included, can be chosen. *)
Theorem C71_every_port : forall lp p, in_range lp p -> exists draw, generate lp draw = Ret p.
Proof. exact generate_onto. Qed.
Print Assumptions C71_every_port.

(** Each setting takes the value given, or the documented default; anything else is refused. *)
Theorem C83_settings : forall parse_host boot doc c, toml_doc doc ->
  (config_of parse_host boot doc = Some c <-> settings parse_host boot doc c).
Proof. exact config_of_iff. Qed.
Print Assumptions C83_settings.
(** The default bootstrap nodes are those documented, provided their names are host names. *)
Theorem C83_bootstrap : forall parse_host h1 h2 h3,
  parse_host (bs "dht.transmissionbt.com") = Some h1 -> parse_host (bs "relay.pkarr.org") = Some h2 ->
  parse_host (bs "router.bittorrent.com") = Some h3 ->
  default_bootstrap parse_host = Ret [mkInet h1 6881; mkInet h2 6881; mkInet h3 6881].
Proof. exact default_bootstrap_eq. Qed.
Print Assumptions C83_bootstrap.

(** Results are the list of files read and the configuration (None: exit with failure). *)
Theorem C72_no_config : forall parse_host parse_toml fs path default_path boot, exists c,
  select_config parse_host parse_toml fs true path default_path boot = ([], Some c) /\ all_default parse_host boot c.
Proof. exact select_none. Qed.
Print Assumptions C72_no_config.

(** A file named on the command line is the only one read; if it is missing, unreadable
    or invalid the program fails. *)
Theorem C72_explicit : forall parse_host parse_toml, (forall content doc, parse_toml content = Some doc -> toml_doc doc) ->
  forall fs p default_path boot, exists o,
  select_config parse_host parse_toml fs false (Some p) default_path boot = ([p], o) /\
  forall c, o = Some c <-> file_gives parse_host parse_toml fs boot p c.
Proof. exact select_explicit. Qed.
Print Assumptions C72_explicit.

(** The default file may be missing, but not unreadable or invalid. *)
Theorem C72_default : forall parse_host parse_toml, (forall content doc, parse_toml content = Some doc -> toml_doc doc) ->
  forall fs p boot, exists o,
  select_config parse_host parse_toml fs false None (Some p) boot = ([p], o) /\
  forall c, o = Some c <-> file_gives parse_host parse_toml fs boot p c \/ (fs p = Err true /\ all_default parse_host boot c).
Proof. exact select_default. Qed.
Print Assumptions C72_default.
(** Without a home directory no file is read and the program fails, unless a file is named or
    none is wanted (above). *)
Theorem C72_no_home : forall parse_host parse_toml fs boot, select_config parse_host parse_toml fs false None None boot = ([], None).
Proof. exact select_no_home. Qed.
Print Assumptions C72_no_home.

(** A document with most settings, and what the program makes of it. *)
Definition host0 (s : bytes) : option url_host :=
  if bytes_eqb s (bs "10.0.0.1") then Some (HIp (V4 167772161)) else Some (HDomain s).
Definition doc0 : table :=
  [(bs "general", TTable [(bs "batch-jobs", TInt 100); (bs "colour", TOther); (bs "encrypt", TStr (bs "if-required"))]);
   (bs "trackers", TTable [(bs "local-port", TStr (bs "10000 - 65535")); (bs "numwant", TInt 75); (bs "shutdown-timeout", TInt 0)]);
   (bs "dht", TTable [(bs "bootstrap-nodes", TArr [TStr (bs "router.example.com:6881"); TStr (bs "10.0.0.1:8000")])])].
Definition config0 : config :=
  mkConfig 100 CPIfRequired (Range 10000 65535) 75 30 30 0 30 60 30
    [mkInet (HDomain (bs "router.example.com")) 6881; mkInet (HIp (V4 167772161)) 8000] 2.
Example C83_nonvacuous : toml_doc doc0 /\ config_of host0 [] doc0 = Some config0 /\
  config_of host0 [] [(bs "general", TTable [(bs "batch-jobs", TInt 0)])] = None.
Proof.
  split; [|vm_compute; auto]. apply toml_doc_b.
  - repeat constructor; cbn [map fst In]; intuition discriminate.
  - repeat constructor; cbn [map fst In]; intuition discriminate.
Qed.
Example C71_nonvacuous :
  as_local_port (TStr (bs "3000 - 4000")) = Some (Range 3000 4000) /\ as_local_port (TStr (bs "4000-3000")) = None /\
  as_local_port (TStr (bs "0-65535")) = Some (Range 0 65535) /\ as_local_port (TStr (bs "0-65536")) = None /\
  as_local_port (TInt 60069) = Some (Constant 60069) /\ as_local_port (TInt 65536) = None /\
  generate (Range 3000 4000) 123456 = Ret 3333 /\ generate (Range 0 65535) 65535 = Ret 65535.
Proof. vm_compute. auto 10. Qed.
Example C72_nonvacuous :
  let toml (s : bytes) := match s with [] => Some doc0 | _ => None end in
  let fs (p : bytes) := match p with [] => Ok [] | [_] => Ok [x01] | _ => Err true end in
  let sel := select_config host0 toml fs in
  sel false (Some []) None [] = ([[]], Some config0) /\
  sel false (Some [x01]) None [] = ([[x01]], None) /\
  sel false None (Some [x01]) [] = ([[x01]], None) /\
  sel false (Some [x01; x01]) (Some []) [] = ([[x01; x01]], None) /\
  sel false None (Some [x01; x01]) [] = ([[x01; x01]], Some (default_config [])) /\
  sel true None (Some []) [] = ([], Some (default_config [])).
Proof. vm_compute. auto 10. Qed.
