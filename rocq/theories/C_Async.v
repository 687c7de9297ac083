(** Properties C56, C57: removing duplicates, shutting down. *)
From Verif Require Import Base M_Async S_Async P_Async.

(** C56: whatever the polls of the underlying stream give (items, pendings, the end), what
    has been yielded after [n] polls is the first item of each key among the items
    received so far, in order. *)
Theorem C56_prefix : forall A K (eqb : K -> K -> bool) (key : A -> K), (forall a b, eqb a b = true <-> a = b) -> forall n inner,
  exists used rest, inner = used ++ rest /\ firsts key (items used) (items (polls eqb key n [] inner)).
Proof. exact @unique_prefix. Qed.
Print Assumptions C56_prefix.
(** When it ends, of all of them; and it ends. *)
Theorem C56_complete : forall A K (eqb : K -> K -> bool) (key : A -> K), (forall a b, eqb a b = true <-> a = b) -> forall n inner,
  well_formed inner -> In Ended (polls eqb key n [] inner) ->
  exists q r, polls eqb key n [] inner = q ++ Ended :: r /\ firsts key (items inner) (items q).
Proof. exact @unique_complete. Qed.
Print Assumptions C56_complete.
Theorem C56_ends : forall A K (eqb : K -> K -> bool) (key : A -> K) inner n seen, well_formed inner -> (length inner <= n)%nat ->
  In Ended (polls eqb key n seen inner).
Proof. exact @unique_ends. Qed.
Print Assumptions C56_ends.
Example C56_nonvacuous :
  let inner := [Item 4; Pending; Item 10; Item 20; Item 30; Item 8; Item 21; Ended] in
  well_formed inner /\ polls N.eqb (fun n => n mod 10) 5 [] inner = [Item 4; Pending; Item 10; Item 8; Item 21] /\
  polls N.eqb (fun n => n mod 10) 6 [] inner = [Item 4; Pending; Item 10; Item 8; Item 21; Ended].
Proof.
  cbv zeta. split; [|split; reflexivity]. exists [Item 4; Pending; Item 10; Item 20; Item 30; Item 8; Item 21].
  split; [reflexivity|]. cbn [In]. intros H. repeat (destruct H as [H|H]; [discriminate|]). exact H.
Qed.

(** C57: at the moment shutdown returns no task is running: all ever spawned have ended. *)
Theorem C57_none_left : forall l s0 s, grun g_new l = Some s0 -> gstep s0 GJoin = Some s -> g_phase s = GReturned ->
  g_running s = [] /\ forall i, (i < g_next s)%nat -> In i (g_ended s).
Proof. exact none_left. Qed.
Print Assumptions C57_none_left.
Theorem C57_returns_by_joining : forall s e s', gstep s e = Some s' -> g_phase s <> GReturned -> g_phase s' = GReturned -> e = GJoin.
Proof. exact returned_by. Qed.
Print Assumptions C57_returns_by_joining.
(** Tasks are cancelled only after the given time has passed since the call. *)
Theorem C57_patient : forall l s, grun g_new l = Some s -> g_cancelled s = true ->
  exists l1 d l2 l3, l = l1 ++ GCall d :: l2 ++ GTimeout :: l3 /\ d <= ticks l2.
Proof. exact cancel_only_late. Qed.
Print Assumptions C57_patient.
(** As long as there are running tasks, then they can be. *)
Theorem C57_cancels : forall s deadline, g_phase s = GFirstJoin deadline -> g_running s <> [] ->
  (gstep s GTimeout <> None <-> deadline <= g_now s).
Proof. exact cancel_enabled. Qed.
Print Assumptions C57_cancels.
(** Once the tasks running end (of themselves or because they were cancelled), it returns. *)
Theorem C57_returns : forall l s deadline, grun g_new l = Some s -> g_phase s = GSecondJoin \/ g_phase s = GFirstJoin deadline ->
  exists joins s', (joins = [GJoin] \/ joins = [GJoin; GJoin]) /\ grun s (map GEnd (g_running s) ++ joins) = Some s' /\
    g_phase s' = GReturned /\ g_cancelled s' = g_cancelled s.
Proof. exact returns. Qed.
Print Assumptions C57_returns.
Example C57_nonvacuous :
  (exists s, grun g_new [GSpawn; GSpawn; GTick 5; GCall 10; GTick 4; GEnd 0; GTick 6; GTimeout; GTick 1; GEnd 1; GJoin] = Some s /\
     g_phase s = GReturned /\ g_cancelled s = true) /\
  (exists s, grun g_new [GSpawn; GTick 5; GCall 10; GTick 4; GEnd 0; GJoin; GJoin] = Some s /\ g_phase s = GReturned /\ g_cancelled s = false) /\
  grun g_new [GSpawn; GCall 10; GTick 9; GTimeout] = None.
Proof. conjs_; [eexists; vm_compute; auto|eexists; vm_compute; auto|reflexivity]. Qed.
