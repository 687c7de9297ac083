(** Configuration: src/config.rs, and the choice of configuration file in src/main.rs. *)
From Verif Require Import Base M_Net M_Tracker M_Session M_Magnet.

(** What crate toml yields for a document (integers are i64; [TOther]: booleans, floats,
    dates).  Keys of a table are distinct.  The TOML syntax itself is not modelled. *)
Inductive toml := TInt (z : Z) | TStr (s : bytes) | TArr (l : list toml) | TTable (d : list (bytes * toml)) | TOther.
Definition table := list (bytes * toml).
Fixpoint tget (k : bytes) (d : table) : option toml :=
  match d with
  | [] => None
  | (k', v) :: r => if bytes_eqb k' k then Some v else tget k r
  end.

(** str::parse::<u16>: an optional "+", then digits; overflow is an error *)
Fixpoint u16_digits (s : bytes) (acc : N) : option N :=
  match s with
  | [] => Some acc
  | c :: r =>
      if is_digit c then
        let n := acc * 10 + (b2n c - 48) in if n <? 65536 then u16_digits r n else None
      else None
  end.
Definition parse_u16 (s : bytes) : option N :=
  match s with
  | [] => None
  | c :: r => if Byte.eqb c "+" then match r with [] => None | _ => u16_digits r 0 end else u16_digits s 0
  end.

(** src/config.rs:151-155 LocalPort *)
Inductive local_port := Constant (p : N) | Range (low high : N).
(** str::split_once('-') *)
Fixpoint split_once (sep : byte) (s : bytes) : option (bytes * bytes) :=
  match s with
  | [] => None
  | c :: r => if Byte.eqb c sep then Some ([], r)
              else match split_once sep r with Some (a, b) => Some (c :: a, b) | None => None end
  end.
(** src/config.rs:242-262 visit_str *)
Definition local_port_str (s : bytes) : option local_port :=
  if forallb is_digit s then leto p := parse_u16 s in Some (Constant p)
  else
    leto (pre, post) := split_once "-" s in
    leto low := parse_u16 (trim pre) in
    leto high := parse_u16 (trim post) in
    if low <=? high then Some (Range low high) else None.
(** src/config.rs:175-266 Deserialize for LocalPort: TOML integers arrive as i64 *)
Definition as_local_port (v : toml) : option local_port :=
  match v with
  | TInt z => if (Z.leb 0 z && Z.ltb z 65536)%bool then Some (Constant (Z.to_N z)) else None
  | TStr s => local_port_str s
  | _ => None
  end.
(** src/config.rs:157-164 LocalPort::generate.  [draw]: the random number; rand's
    [random_range] panics on an empty range *)
Definition generate (lp : local_port) (draw : N) : outcome N :=
  match lp with
  | Constant p => Ret p
  | Range low high => if low <=? high then Ret (low + draw mod (high - low + 1)) else Panic
  end.

(** serde's conversions of integers: NonZeroUsize (64 bits), NonZeroU32, u64 *)
Definition as_nonzero (bits : N) (v : toml) : option N :=
  match v with
  | TInt z => if (Z.ltb 0 z && Z.ltb z (2 ^ Z.of_N bits))%bool then Some (Z.to_N z) else None
  | _ => None
  end.
(** src/config.rs:308-313 deserialize_seconds *)
Definition as_seconds (v : toml) : option N :=
  match v with
  | TInt z => if (Z.leb 0 z && Z.ltb z (2 ^ 64))%bool then Some (Z.to_N z) else None
  | _ => None
  end.
(** src/config.rs:268-276 CryptoPreference, kebab-case (serde's one-entry-table form of a
    variant is not modelled) *)
Definition as_pref (v : toml) : option crypto_pref :=
  match v with
  | TStr s =>
      if bytes_eqb s (bs "always") then Some CPAlways
      else if bytes_eqb s (bs "prefer") then Some CPPrefer
      else if bytes_eqb s (bs "if-required") then Some CPIfRequired
      else if bytes_eqb s (bs "never") then Some CPNever
      else None
  | _ => None
  end.

(** src/dht/mod.rs:160-164 InetAddr *)
Record inet_addr := mkInet { ia_host : url_host; ia_port : N }.
(** str::rsplit_once(':') *)
Definition rsplit_once (sep : byte) (s : bytes) : option (bytes * bytes) :=
  match split_once sep (rev s) with Some (b, a) => Some (rev a, rev b) | None => None end.

(** src/config.rs:15-149: the settings (tables general, trackers, peers, dht) *)
Record config := mkConfig {
  c_batch_jobs : N; c_encrypt : crypto_pref;
  c_local_port : local_port; c_numwant : N; c_tracker_jobs : N; c_announce_timeout : N; c_shutdown_timeout : N;
  c_peer_jobs : N; c_handshake_timeout : N; c_dh_timeout : N;
  c_bootstrap : list inet_addr; c_query_timeout : N }.

Section Config.
(** url::Host::parse (crate url), left arbitrary *)
Variable parse_host : bytes -> option url_host.

(** src/dht/mod.rs:194-205 FromStr for InetAddr *)
Definition inet_from_str (s : bytes) : option inet_addr :=
  leto (host, port) := rsplit_once ":" s in
  leto p := parse_u16 port in
  leto h := parse_host host in
  Some (mkInet h p).
(** src/dht/mod.rs:211-234 Deserialize for InetAddr *)
Definition as_inet (v : toml) : option inet_addr :=
  match v with TStr s => inet_from_str s | _ => None end.
Fixpoint as_inets (l : list toml) : option (list inet_addr) :=
  match l with
  | [] => Some []
  | v :: r => leto a := as_inet v in leto l := as_inets r in Some (a :: l)
  end.
(** mitsein Vec1: at least one *)
Definition as_inets1 (v : toml) : option (list inet_addr) :=
  match v with
  | TArr (x :: r) => as_inets (x :: r)
  | _ => None
  end.

(** src/consts.rs:33-37 DEFAULT_DHT_BOOTSTRAP_NODES; src/config.rs:133-149: parsing them
    panics (expect) if one is not an address *)
Definition bootstrap_names : list bytes :=
  [bs "dht.transmissionbt.com:6881"; bs "relay.pkarr.org:6881"; bs "router.bittorrent.com:6881"].
Definition default_bootstrap : outcome (list inet_addr) :=
  match as_inets (map TStr bootstrap_names) with Some l => Ret l | None => Panic end.

(** serde(default): absent means the default, present is decoded *)
Definition setting {A} (d : table) (k : bytes) (dec : toml -> option A) (dflt : A) : option A :=
  match tget k d with None => Some dflt | Some v => dec v end.
(** A table of settings, all optional; unknown keys are ignored.  Simplification: serde
    would also take an array of the settings' values in declaration order. *)
Definition section (doc : table) (k : bytes) : option table :=
  match tget k doc with None => Some [] | Some (TTable d) => Some d | Some _ => None end.

(** src/config.rs:15-149 Deserialize for Config, with the defaults of lines 52-60, 82-93,
    111-120, 133-149, 166-173 *)
Definition config_of (boot : list inet_addr) (doc : table) : option config :=
  leto g := section doc (bs "general") in
  leto batch := setting g (bs "batch-jobs") (as_nonzero 64) 50 in
  leto enc := setting g (bs "encrypt") as_pref CPPrefer in
  leto t := section doc (bs "trackers") in
  leto lp := setting t (bs "local-port") as_local_port (Range 1025 65535) in
  leto nw := setting t (bs "numwant") (as_nonzero 32) 50 in
  leto tj := setting t (bs "jobs-per-magnet") (as_nonzero 64) 30 in
  leto at_ := setting t (bs "announce-timeout") as_seconds 30 in
  leto st := setting t (bs "shutdown-timeout") as_seconds 3 in
  leto p := section doc (bs "peers") in
  leto pj := setting p (bs "jobs-per-magnet") (as_nonzero 64) 30 in
  leto ht := setting p (bs "handshake-timeout") as_seconds 60 in
  leto dt := setting p (bs "dh-exchange-timeout") as_seconds 30 in
  leto d := section doc (bs "dht") in
  leto bn := setting d (bs "bootstrap-nodes") as_inets1 boot in
  leto qt := setting d (bs "query-timeout") as_seconds 2 in
  Some (mkConfig batch enc lp nw tj at_ st pj ht dt bn qt).

(** src/config.rs:300-306 ConfigError *)
Inductive config_error := CRead (not_found : bool) | CParse.
(** Reading a file: its content, or an I/O error ([true]: it does not exist) *)
Definition files := bytes -> res bool bytes.
Section Load.
(** crate toml's parser *)
Variable parse_toml : bytes -> option table.
Variable fs : files.

(** src/config.rs:37-40 Config::load (a content that is not UTF-8 is an I/O error of
    read_to_string and belongs to [fs]) *)
Definition load (path : bytes) (boot : list inet_addr) : res config_error config :=
  match fs path with
  | Err nf => Err (CRead nf)
  | Ok content =>
      match parse_toml content with
      | None => Err CParse
      | Some doc => ok_or (config_of boot doc) CParse
      end
  end.
Definition default_config (boot : list inet_addr) : config :=
  mkConfig 50 CPPrefer (Range 1025 65535) 50 30 30 3 30 60 30 boot 2.

(** src/main.rs:62-99 Arguments::run up to the configuration: the files read, and the
    configuration or failure (exit code FAILURE).  [no_config]/[path]: the options;
    [default_path]: src/config.rs:28-34 (None: no home directory). *)
Definition select_config (no_config : bool) (path default_path : option bytes) (boot : list inet_addr)
  : list bytes * option config :=
  if no_config then ([], Some (default_config boot))
  else
    match (match path with Some p => Some (p, false) | None => match default_path with Some p => Some (p, true) | None => None end end) with
    | None => ([], None)
    | Some (p, is_default) =>
        ([p], match load p boot with
              | Ok c => Some c
              | Err (CRead true) => if is_default then Some (default_config boot) else None
              | Err _ => None
              end)
    end.
End Load.
End Config.
