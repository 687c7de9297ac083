(** Property C52 for the commands: of a magnet link at most [nt] trackers are queried and at
    most [np] peers contacted at any one time; of a file of links at most [n] are worked on
    (an execution may stop anywhere, so this is at every moment of it). *)
From Verif Require Import Base M_Nursery S_Nursery M_Resolve S_Resolve M_Batch M_Config M_Get M_BatchCmd P_Limits P_Limits2 P_BatchEx.
Local Open Scope nat_scope.

Theorem C52_magnet : forall (T P A M : Type) (addr_eqb : A -> A -> bool) (addr : P -> A), (forall a b, addr_eqb a b = true <-> a = b) ->
  forall announce fetch nt np (trackers : list T) dht s0 l (s : rst T P A M) hT hP,
  r_start nt np trackers dht = Some s0 -> rrun addr_eqb addr announce fetch s0 l = Some (s, hT, hP) ->
  length (started hT) <= nt + length (finished hT) + length (aborted hT) /\
  length (started hP) <= np + length (finished hP) + length (aborted hP).
Proof. exact @magnet_limits. Qed.
Print Assumptions C52_magnet.
Theorem C52_batch : forall (Mg E : Type) download n (parsed : res E (list Mg)) l s h, brun download (b_start n parsed) l = Some (s, h) ->
  length (started h) <= n + length (finished h) + length (aborted h).
Proof. exact @batch_limit. Qed.
Print Assumptions C52_batch.

(** For the commands 'get' and 'batch' these are the numbers configured. *)
Theorem C52_get : forall cfg pid m w s0 l s hT hP, get_start cfg m w = Some s0 -> get_run cfg pid m w s0 l = Some (s, hT, hP) ->
  length (started hT) <= N.to_nat (c_tracker_jobs cfg) + length (finished hT) + length (aborted hT) /\
  length (started hP) <= N.to_nat (c_peer_jobs cfg) + length (finished hP) + length (aborted hP).
Proof. exact get_limits. Qed.
Print Assumptions C52_get.
Theorem C52_batch_cmd : forall show_url parse_url cfg pid template content trips l s h,
  batch_cmd show_url parse_url cfg pid template content trips l = Some (s, h) ->
  length (started h) <= N.to_nat (c_batch_jobs cfg) + length (finished h) + length (aborted h).
Proof. exact batch_cmd_limit. Qed.
Print Assumptions C52_batch_cmd.

(** In particular a link's directories and file are asked for only once its job has been
    started, and at most that many links can have asked for something without their jobs
    having finished: no more files are being written at once. *)
Theorem C52_batch_writes : forall show_url parse_url cfg pid template content trips l s h,
  batch_cmd show_url parse_url cfg pid template content trips l = Some (s, h) ->
  (forall k o, In (k, o) (c_log s) -> exists m, In (k, m) (started h)) /\
  forall ks, NoDup ks -> (forall k, In k ks -> (exists o, In (k, o) (c_log s)) /\ forall m r, ~ In ((k, m), r) (finished h)) -> length ks <= N.to_nat (c_batch_jobs cfg).
Proof. exact batch_writes. Qed.
Print Assumptions C52_batch_writes.

(** Three trackers, two at a time; three peers from the first, two at a time *)
Example C52_magnet_nonvacuous : exists s0 s hT hP,
  r_start (A := nat) 2 2 [7; 8; 9] None = Some s0 /\
  rrun (M := nat) Nat.eqb (fun p => p) (fun _ => Ret [1; 2; 3]) (fun _ => Ret None) s0
    ([Main; Main; Main; Main] ++ map Tr [KTake 0; KCheck 0; KStart 0; KFinish 0; KSend 0; KTake 0; KTake 1; KCheck 1; KCheck 0; KStart 0; KStart 1] ++
     [Job; Job; Job; Job; Job; Job; Job] ++ map Pe [KTake 0; KCheck 0; KStart 0; KTake 1; KCheck 1; KStart 1]) = Some (s, hT, hP) /\
  (length (started hT), length (finished hT), length (started hP), length (finished hP), length (accepted hP)) = (3, 1, 2, 0, 3).
Proof. eexists _, _, _, _. split; [reflexivity|]. split; vm_compute; reflexivity. Qed.
Example C52_batch_nonvacuous : exists s h,
  brun (fun _ => Ret true) (b_start (E := unit) 2 (Ok [5; 6; 7]))
    ([BMain; BMain; BMain] ++ map BWork [KTake 0; KTake 1; KCheck 1; KCheck 0; KStart 1; KStart 0]) = Some (s, h) /\
  (length (started h), length (accepted h)) = (2, 3).
Proof. eexists _, _. split; vm_compute; reflexivity. Qed.
(** Two files are being written. *)
Example C52_batch_writes_nonvacuous : exists s h,
  bx_run (bx_spawn ++ bx_begin 0 ++ bx_begin 1 ++ map CRequest [0; 0; 1]) = Some (s, h) /\ map fst (c_log s) = [0; 0; 1] /\ finished h = [].
Proof.
  assert (X : option_map (fun r => (map fst (c_log (fst r)), match finished (snd r) with [] => true | _ => false end)) (bx_run (bx_spawn ++ bx_begin 0 ++ bx_begin 1 ++ map CRequest [0; 0; 1])) = Some ([0; 0; 1], true))
    by (vm_compute; reflexivity).
  destruct (bx_run _) as [[s h]|]; cbn [option_map fst snd] in X; [|discriminate X]. exists s, h. injection X as X1 X2. split; [reflexivity|]. split; [exact X1|]. destruct (finished h); [reflexivity|discriminate X2].
Qed.
