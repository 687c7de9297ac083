(** A magnet link without trackers, for the examples: the DHT node that is asked knows one
    peer and one further node, which knows the same peer. *)
From Verif Require Import Base BaseFacts M_Net M_Sha1 M_Types M_Tracker M_Dht M_DhtMsg S_Dht M_App S_App P_App7 M_Udp M_Http M_Magnet M_Torrent M_Session M_Mse M_GetInfo M_Config
  M_Nursery S_Nursery M_Resolve S_Resolve S_Quiet M_Get S_Get S_Bencode S_Download P_Dht P_Download P_Session P_GetInfo3 P_Write4 P_Get P_Get2 P_Get3 M_GetDht S_GetDht P_GetDht.

Definition dx_reply : bytes :=
  bs "d1:rd2:id20:aaaaaaaaaaaaaaaaaaaa5:nodes26:bbbbbbbbbbbbbbbbbbbb" ++ [x05; x06; x07; x08; x1a; xe1] ++ bs "6:valuesl6:" ++ [x7f; x00; x00; x01; x1a; xe1] ++ bs "ee1:t4:" ++ [x00; x00; x00; x00] ++ bs "1:y1:re".
Definition dx_reply2 : bytes :=
  bs "d1:rd2:id20:bbbbbbbbbbbbbbbbbbbb6:valuesl6:" ++ [x7f; x00; x00; x01; x1a; xe1] ++ bs "ee1:t4:" ++ [x00; x00; x00; x01] ++ bs "1:y1:re".
Definition dx_node : sockaddr := mkSA (V4 84281096) 6881.
Definition dx_lookup : list pev :=
  [PCall (CLookup (sha1 ex_data)); PLock 0; PCreate 0 (Some (ex_hash xff, false)); PSend 0; PResolve 0 [ex_addr]; PTake 0 [true];
   PNet 0 (ADatagram ex_addr dx_reply (Some 0%nat) [true]); PNet 0 (ADatagram dx_node dx_reply2 (Some 0%nat) [])].
Definition dx_found : found_peers := mkFound [snd good_contact] [dx_node].
Definition dx_world : world :=
  mkWorld (fun _ => Ret []) (Some ([good_contact], [dx_node])) (w_meet ex_world) (w_clock ex_world).
Definition dx_sched : list rev := [Job; Job; Job; Pe (KTake 0); Pe (KCheck 0); Pe (KStart 0); Pe (KFinish 0); Pe (KSend 0); Main; Main; Main; Main; Pe (KAbort 0)].

Lemma dx_ran : Forall wf_pev dx_lookup /\ prun app_new dx_lookup = Some (state_of dx_lookup, seen_of dx_lookup) /\
  looked_up (seen_of dx_lookup) 0 crowd_magnet (Found dx_found) dx_world /\ In (OServe 0 0 0) (seen_of dx_lookup) /\
  named (seen_of dx_lookup) 0 0 (sha1 ex_data) (snd good_contact).
Proof.
  split; [repeat constructor|]. split; [vm_compute; reflexivity|]. split; [|split].
  - split; [reflexivity|]. split; [vm_compute; tauto|]. split; [vm_compute; tauto|]. split; reflexivity.
  - vm_compute; tauto.
  - destruct (of_node 0 (seen_of dx_lookup)) as [|o1 [|o2 [|o3 r]]] eqn:E; try (vm_compute in E; discriminate E).
    destruct o3 as [| |sid addr txn [rsp|e]| | |]; try (vm_compute in E; discriminate E). destruct o2 as [|sid2 addr2 q ok| | | |]; try (vm_compute in E; discriminate E).
    exists [o1; OQuery sid2 addr2 q ok], addr, txn, rsp, r, q. rewrite E. vm_compute in E. injection E as <- <- <- <- <- <- <- <- <- <-.
    split; [reflexivity|]. split; [left; reflexivity|]. split; [right; left; reflexivity|]. split; reflexivity.
Qed.
Lemma dx_fetch : contact_info ex_cfg ex_pid (sha1 ex_data) dx_world good_contact = Ret ([false], SDone (Ok (mkTI (sha1 ex_data) ex_data))).
Proof. exact good_fetch. Qed.
Lemma dx_to_try c : to_try crowd_magnet dx_world c -> c = good_contact.
Proof. intros [(_ & d & E & X)|(k & l & K & _)]; [injection E as <-; destruct X as [X|[]]; auto|cbn in K; lia]. Qed.
Lemma dx_runs : exists s0 s hT hP, get_start ex_cfg crowd_magnet dx_world = Some s0 /\ get_run ex_cfg ex_pid crowd_magnet dx_world s0 dx_sched = Some (s, hT, hP) /\
  never_ends (hangs ex_cfg ex_pid (sha1 ex_data) dx_world) hP /\
  quiet sa_eqb contact_addr (w_announce dx_world) (contact_fetch ex_cfg ex_pid (sha1 ex_data) dx_world) (hangs ex_cfg ex_pid (sha1 ex_data) dx_world) s.
Proof.
  pose proof dx_fetch as GF. set (i := mkTI (sha1 ex_data) ex_data) in *.
  set (fetch := contact_fetch ex_cfg ex_pid (sha1 ex_data) dx_world).
  assert (FG : forall c, fetch c = if is_good c then Ret (Some i) else fetch c).
  { intros c. destruct (is_good c) eqn:E; [|reflexivity]. apply is_good_spec in E. subst c. unfold fetch, contact_fetch. now rewrite GF. }
  assert (HF : hangs ex_cfg ex_pid (sha1 ex_data) dx_world good_contact = false) by (unfold hangs; now rewrite GF).
  unfold get_run. change (mg_hash crowd_magnet) with (sha1 ex_data). fold fetch.
  generalize (hangs ex_cfg ex_pid (sha1 ex_data) dx_world), HF. intros hang HF'. clear GF HF. revert FG.
  generalize fetch. clear fetch. intros fetch FG. clearbody i.
  assert (R : forall f0 : contact -> outcome (option torrent_info), exists s0 s hT hP, get_start ex_cfg crowd_magnet dx_world = Some s0 /\
     rrun sa_eqb contact_addr (w_announce dx_world) (fun c => if is_good c then Ret (Some i) else f0 c) s0 dx_sched = Some (s, hT, hP) /\
     finished hP = [((0%nat, good_contact), Ret (Some i))] /\ quiet sa_eqb contact_addr (w_announce dx_world) fetch hang s).
  { intros f0. do 4 eexists. split; [reflexivity|]. split; [vm_compute; reflexivity|]. split; [reflexivity|].
    intros e EN. exfalso. apply EN. destruct e as [| | |e|e]; try reflexivity.
    + cbn [rstep r_trackers]. destruct e as [k|k|k|k|k|k|k]; destruct k as [|[|k]]; reflexivity.
    + cbn [rstep r_peers]. destruct e as [k|k|k|k|k|k|k]; destruct k as [|[|k]]; reflexivity. }
  destruct (R fetch) as (s0 & s & hT & hP & R1 & R2 & R4 & R5). exists s0, s, hT, hP. split; [exact R1|].
  rewrite (rrun_ext _ _ _ _ _ FG). split; [exact R2|]. split; [|exact R5].
  intros j r X. rewrite R4 in X. destruct X as [X|[]]. injection X as <- <-. exact HF'.
Qed.
Lemma dx_serves : serves ex_cfg ex_pid (sha1 ex_data) dx_world good_contact.
Proof.
  exists ex_data.
  split; [exact (proj1 ex_session)|]. split; [reflexivity|]. split; [vm_compute; discriminate|].
      exists 0, (mkDial None [] [] 0 [], []), (mkDial (Some (ns 1, Ok tt)) (ex_reads 0) [] 0 [], []), [false]. split; [reflexivity|]. apply obtainable_nil. left. split; [reflexivity|].
  split; [split; [reflexivity|auto]|]. exists (ns 1). split; [reflexivity|]. split; [cbn [ex_cfg c_handshake_timeout]; unfold ns; lia|exact (ex_plain 0)].
Qed.
