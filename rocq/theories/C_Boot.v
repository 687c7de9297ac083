(** Property C98: the addresses of the DHT bootstrap nodes.  Specification: S_Boot.
    [nodes]: the bootstrap nodes configured; [l]: any order in which resolutions can be
    started and answered. *)
From Coq Require Import Permutation.
From Verif Require Import Base M_Net M_Tracker M_Config M_Boot S_Boot P_Boot.
Local Open Scope nat_scope.

(** At the end: one address, as specified, for each node that has one, whatever the
    resolver answers for the others, and no other. *)
Theorem C98_addresses : forall v6 nodes l s,
  boot_run v6 (boot_start nodes) l = Some s -> boot_over s = true ->
  exists answers rs, length answers = length nodes /\ length rs = length nodes /\
    (forall k n ans r, nth_error nodes k = Some n -> nth_error answers k = Some ans -> nth_error rs k = Some r ->
       In (BoAnswer k ans) l /\ address_of v6 n ans r) /\
    Permutation (bo_addrs s) (somes rs).
Proof. exact boot_result. Qed.
Print Assumptions C98_addresses.
(** Without an IPv6 socket all addresses are IPv4. *)
Theorem C98_reachable : forall nodes l s a, boot_run false (boot_start nodes) l = Some s -> In a (bo_addrs s) -> v4 a.
Proof. exact boot_reachable. Qed.
Print Assumptions C98_reachable.
(** At most ten resolutions run at a time. *)
Theorem C98_limit : forall v6 nodes l s, boot_run v6 (boot_start nodes) l = Some s -> length (bo_running s) <= 10.
Proof. exact boot_limit. Qed.
Print Assumptions C98_limit.
(** Until the end, a resolution is running, and may be answered, or can be started; it takes
    two steps per node. *)
Theorem C98_progress : forall v6 nodes l s, boot_run v6 (boot_start nodes) l = Some s ->
  length l <= 2 * length nodes /\
  (boot_over s = false ->
   (exists k n, In (k, n) (bo_running s) /\ forall answer, boot_step v6 s (BoAnswer k answer) <> None) \/ boot_step v6 s BoStart <> None).
Proof. exact (fun v6 nodes l s R => conj (boot_bounded v6 nodes l s R) (boot_progress v6 nodes l s R)). Qed.
Print Assumptions C98_progress.
Example C98_nonvacuous :
  let n1 := mkInet (HDomain (bs "router.bittorrent.com")) 6881 in let n2 := mkInet (HIp (V6 1)) 80 in let n3 := mkInet (HDomain (bs "nowhere")) 1 in
  let run v6 := boot_run v6 (boot_start [n1; n2; n3]) [BoStart; BoStart; BoAnswer 1 None; BoStart; BoAnswer 2 None; BoAnswer 0 (Some [mkSA (V6 7) 6881; mkSA (V4 9) 6881])] in
  option_map bo_addrs (run true) = Some [mkSA (V6 1) 80; mkSA (V6 7) 6881] /\ option_map boot_over (run true) = Some true /\
  option_map bo_addrs (run false) = Some [mkSA (V4 9) 6881] /\ option_map boot_over (run false) = Some true.
Proof. vm_compute. auto. Qed.
