(** The unit tests of src/config.rs:315-538 and src/dht/mod.rs, replayed on the model
    (documents as trees: TOML syntax is not modelled). *)
From Verif Require Import Base M_Net M_Tracker M_Session M_Config C_Config.

Definition d0 : config := default_config [].
Definition with_port (lp : local_port) := mkConfig 50 CPPrefer lp 50 30 30 3 30 60 30 [] 2.
Definition cfg := config_of host0 [].
Definition port (v : toml) := cfg [(bs "trackers", TTable [(bs "local-port", v)])].
Example local_port_tests :
  cfg [] = Some d0 /\
  port (TInt 60069) = Some (with_port (Constant 60069)) /\
  port (TStr (bs "60069")) = Some (with_port (Constant 60069)) /\
  port (TStr (bs "3000-4000")) = Some (with_port (Range 3000 4000)) /\
  port (TStr (bs "3000 - 4000")) = Some (with_port (Range 3000 4000)) /\
  port (TStr (bs "3000-3000")) = Some (with_port (Range 3000 3000)) /\
  port (TStr (bs "4000-3000")) = None /\
  cfg [(bs "dht", TTable [(bs "bootstrap-nodes", TArr [])])] = None /\
  cfg [(bs "trackers", TTable [(bs "shutdown-timeout", TInt 0)])] = Some (mkConfig 50 CPPrefer (Range 1025 65535) 50 30 30 0 30 60 30 [] 2) /\
  generate (Range 1025 1025) 12345 = Ret 1025.
Proof. vm_compute. auto 20. Qed.
Example full_config :
  cfg [(bs "general", TTable [(bs "batch-jobs", TInt 100); (bs "encrypt", TStr (bs "if-required"))]);
       (bs "trackers", TTable [(bs "announce-timeout", TInt 45); (bs "jobs-per-magnet", TInt 42);
          (bs "local-port", TStr (bs "10000-65535")); (bs "numwant", TInt 75); (bs "shutdown-timeout", TInt 5)]);
       (bs "peers", TTable [(bs "dh-exchange-timeout", TInt 10); (bs "handshake-timeout", TInt 120); (bs "jobs-per-magnet", TInt 23)]);
       (bs "dht", TTable [(bs "bootstrap-nodes", TArr [TStr (bs "router.example.com:6881"); TStr (bs "10.0.0.1:8000")]); (bs "query-timeout", TInt 15)])]
  = Some (mkConfig 100 CPIfRequired (Range 10000 65535) 75 42 45 5 23 120 10
      [mkInet (HDomain (bs "router.example.com")) 6881; mkInet (HIp (V4 167772161)) 8000] 15).
Proof. vm_compute. reflexivity. Qed.
