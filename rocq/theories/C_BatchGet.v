(** Property C117: 'batch' does for each link what 'get' does.
    Specification: S_BatchCmd ([gets]: the command 'get' for a link, and what it meets with). *)
From Verif Require Import Base M_Nursery S_Nursery M_Resolve M_Batch M_Magnet M_Config M_Get M_Save M_BatchCmd S_BatchCmd P_BatchGet P_BatchEx.
Local Open Scope nat_scope.

(** When 'batch' exits, what has been asked of the operating system for each link, in that
    order, is what 'get' asks for that link, whether it succeeds or fails; nothing else has
    been asked. *)
Theorem C117_each : forall show_url parse_url cfg pid template content trips l s h ok,
  c_batch_jobs cfg <> 0%N -> batch_cmd show_url parse_url cfg pid template content trips l = Some (s, h) -> b_main (c_batch s) = BExit ok ->
  let magnets := batch_magnets parse_url content in
  (forall k m, nth_error magnets k = Some m -> exists ops b, gets show_url cfg pid template (trips k) m = Some (Ret (ops, b)) /\ map snd (filter (fun r => Nat.eqb (fst r) k) (c_log s)) = ops) /\
  (forall k o, In (k, o) (c_log s) -> k < length magnets).
Proof. exact each_as_get. Qed.
Print Assumptions C117_each.
(** With one link in the file it does the same as 'get', with the same exit status. *)
Theorem C117_one : forall show_url parse_url cfg pid template content trips m l s h ok,
  c_batch_jobs cfg <> 0%N -> batch_magnets parse_url content = [m] ->
  batch_cmd show_url parse_url cfg pid template content trips l = Some (s, h) -> b_main (c_batch s) = BExit ok ->
  exists ops, gets show_url cfg pid template (trips 0) m = Some (Ret (ops, ok)) /\ c_log s = map (pair 0) ops.
Proof. exact one_as_get. Qed.
Print Assumptions C117_one.
(** Two links, their files being written in turns *)
Example C117_nonvacuous : exists s h, bx_run bx_mix = Some (s, h) /\ b_main (c_batch s) = BExit true /\ c_log s = bx_mixed /\ length (batch_magnets bx_parse bx_content) = 2.
Proof. destruct bx_mix_run as (s & h & R & E & L). exists s, h. rewrite bx_magnets. auto. Qed.
(** One link *)
Example C117_one_nonvacuous : exists s h,
  batch_cmd (fun _ => []) bx_parse P_Get3.ex_cfg P_Get3.ex_pid bx_template (bx_line bx_data1) bx_trips
    ([CTask BMain; CTask BMain] ++ bx_begin 0 ++ map CRequest [0; 0; 0] ++ bx_end 0 ++ [CTask BMain] ++ map (fun w => CTask (BWork (KQuit w))) (seq 0 50) ++ [CTask BMain]) = Some (s, h) /\
  b_main (c_batch s) = BExit true /\ c_log s = map (pair 0) (bx_ops bx_data1) /\ batch_magnets bx_parse (bx_line bx_data1) = [bx_magnet bx_data1].
Proof.
  match goal with |- exists s h, ?r = _ /\ _ =>
    assert (X : match r with Some (s, _) => match b_main (c_batch s) with BExit true => Some (c_log s) | _ => None end | None => None end = Some (map (pair 0) (bx_ops bx_data1))) by (vm_compute; reflexivity);
    destruct r as [[s h]|]; [|discriminate X] end.
  exists s, h. destruct (b_main (c_batch s)) as [| |[]|]; try discriminate X. injection X as X. split; [reflexivity|]. split; [reflexivity|]. split; [exact X|vm_compute; reflexivity].
Qed.
