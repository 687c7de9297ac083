(** Property C112: what is logged about failures.  [g] is what is logged, in order; [te k]: the
    error of querying the magnet link's [k]-th tracker, if it fails ([E]: such errors, see C104);
    [l], [w], [cut] as for C93.  Specification: S_Report, S_Get, S_Resolve. *)
From Coq Require Import Permutation.
From Verif Require Import Base M_Net M_Template M_Save M_Tracker M_Torrent M_Types M_Magnet M_Peer M_Session M_Config M_Udp M_GetInfo M_Mse M_Nursery S_Nursery M_Resolve S_Resolve M_Http M_Batch
  M_Get S_Get M_Report S_Report P_Get2 P_Get3 P_Report P_Report2 P_Report3.

(** 'get' ends with a record saying that it failed exactly if it does, after whatever it has
    reported on the way. *)
Theorem C112_verdict : forall (E : Type) (te : nat -> option E) show_url cfg pid m w l template cut fail ops ok,
  get_cmd show_url cfg pid m w l template cut fail = Some (Ret (ops, ok)) ->
  exists notes fin, get_log show_url cfg pid te m w l template cut fail = Some (Ret (Fetching :: map Note notes ++ fin)) /\
    if ok then fin = []
    else fin = [Failed DhtFailed] /\ mg_trackers m = [] /\ w_dht w = None \/ fin = [Failed NotSaved] /\ fail <> None \/ fin = [Failed NothingFromPeers].
Proof. intros E te show_url cfg pid m w. exact (get_verdict_logged show_url cfg pid m w te). Qed.
Print Assumptions C112_verdict.
(** What is reported is true: a peer reported is one there was to try, which has failed with
    that error; a tracker reported has failed with that error.  Each is reported once. *)
Theorem C112_truth : forall (E : Type) (te : nat -> option E) show_url cfg pid m w l template cut fail g,
  get_log show_url cfg pid te m w l template cut fail = Some (Ret g) ->
  (forall c x, In (PeerFailed c x) (notes_of g) -> to_try m w c /\ exists conns, contact_info cfg pid (mg_hash m) w c = Ret (conns, SDone (Err x))) /\
  (forall k t e, In (TrackerFailed k t e) (notes_of g) -> nth_error (mg_trackers m) k = Some t /\ te k = Some e) /\
  NoDup (map (fun r => fst (fst r)) (tracker_reports (notes_of g))) /\
  (mg_trackers m <> [] -> NoDup (map (fun r => contact_addr (fst r)) (peer_reports (notes_of g)))) /\
  (mg_trackers m = [] -> forall found nodes, w_dht w = Some (found, nodes) -> exists rest, Permutation (map fst (peer_reports (notes_of g)) ++ rest) found).
Proof. intros E te show_url cfg pid m w. exact (get_truth show_url cfg pid m w te). Qed.
Print Assumptions C112_truth.
(** And if no metadata was obtained, nothing is left out: every peer there was to try (or one
    with the same address) and every tracker that has failed is reported. *)
Theorem C112_complete : forall (E : Type) (te : nat -> option E) show_url cfg pid m w l template cut fail g,
  c_tracker_jobs cfg <> 0 -> c_peer_jobs cfg <> 0 -> (forall k, w_announce w k <> Panic) ->
  get_log show_url cfg pid te m w l template cut fail = Some (Ret g) -> In (Failed NothingFromPeers) g ->
  (forall c, to_try m w c -> exists c' x, contact_addr c' = contact_addr c /\ In (PeerFailed c' x) (notes_of g)) /\
  (forall k t e, nth_error (mg_trackers m) k = Some t -> te k = Some e -> In (TrackerFailed k t e) (notes_of g)).
Proof. intros E te show_url cfg pid m w. exact (get_complete show_url cfg pid m w te). Qed.
Print Assumptions C112_complete.
(** If metadata was obtained, those reported are those whose results came in before it; the
    peer it is from is not among them ([fetch], [pe]: what fetching from a peer yields, and its
    error). *)
Theorem C112_success : forall (T P A M E X : Type) (addr_eqb : A -> A -> bool) (addr : P -> A), (forall a b, addr_eqb a b = true <-> a = b) ->
  forall announce fetch (te : nat -> option E) (pe : P -> option X) nt np (trackers : list T) dht s0 l (s : rst T P A M) hT hP g i,
  (forall j r, In (j, r) (finished hP) -> fetch (snd j) = Ret None -> pe (snd j) <> None) ->
  r_start nt np trackers dht = Some s0 -> lrun addr_eqb addr announce fetch te pe s0 l = Some (s, hT, hP, g) -> r_main s = MReturned (Some i) ->
  exists p rest, fetch p = Ret (Some i) /\ Permutation (map fst (peer_reports g) ++ p :: rest) (contacted hP) /\ map fst (results hP) = map fst (peer_reports g) ++ [p].
Proof. intros T P A M E X addr_eqb addr S announce fetch te pe nt np trackers dht. exact (peers_success addr_eqb addr S announce fetch te pe nt np trackers dht). Qed.
Print Assumptions C112_success.
(** 'batch' reports exactly the magnet links that failed, each once, and then the right numbers. *)
Theorem C112_batch : forall (Mg E : Type) download n (parsed : res E (list Mg)) l s h (g : list (bnote Mg E)) ok m0 more,
  n <> 0%nat -> parsed = Ok (m0 :: more) -> blrun download (b_start n parsed) l = Some (s, h, g) -> b_main s = BExit ok ->
  let links := m0 :: more in
  exists fails, g = map (fun km => LinkFailed (fst km) (snd km)) fails ++ [Summary (length links - length fails) (length links)] /\ NoDup (map fst fails) /\
    (forall k m, In (k, m) fails <-> nth_error links k = Some m /\ download k = Ret false).
Proof. intros Mg E download n parsed l s h g ok m0 more. exact (batch_logged download n parsed l s h g ok m0 more). Qed.
Print Assumptions C112_batch.
(** A file that cannot be read, or holds no links, is reported as such, and nothing else is. *)
Theorem C112_batch_none : forall (Mg E : Type) download n (parsed : res E (list Mg)) l s h (g : list (bnote Mg E)),
  (forall m more, parsed <> Ok (m :: more)) -> blrun download (b_start n parsed) l = Some (s, h, g) ->
  bfirst parsed ++ g = match parsed with Err e => [Unreadable e] | Ok _ => [NoLinks] end.
Proof.
  intros Mg E download n parsed l s h g NO H. destruct (batch_none download n parsed l s h g NO H) as (_ & -> & _). rewrite app_nil_r.
  destruct parsed as [[|m more]|e]; [reflexivity| |reflexivity]. exfalso. exact (NO _ _ eq_refl).
Qed.
Print Assumptions C112_batch_none.

(** Two trackers, of which the second fails; the first names a peer, which refuses the
    connection *)
Definition ex_log_world := mkWorld (fun k => Ret (match k with O => [good_contact] | _ => [] end)) None
  (fun _ => (0, (mkDial None [] [] 0 [], []), (mkDial (Some (5, Err EConnect)) [] [] 0 [], []))) 0.
Definition ex_log_magnet := mkMagnet (repeat "h"%byte 20) None [TUdp (mkUU (bs "t") 80 []); TUdp (mkUU (bs "u") 80 [])].
Definition ex_log_sched := [Main; Main; Tr (KTake 0); Tr (KCheck 0); Tr (KStart 0); Tr (KFinish 0); Tr (KSend 0); Main; Job; Job; Job;
  Tr (KTake 0); Tr (KCheck 0); Tr (KStart 0); Tr (KFinish 0); Tr (KSend 0); Job; Tr (KQuit 0); Job;
  Pe (KTake 0); Pe (KCheck 0); Pe (KStart 0); Pe (KFinish 0); Pe (KSend 0); Main; Pe (KQuit 0); Main].
Example C112_nonvacuous : forall show_url template cut,
  get_log show_url ex_cfg ex_pid (fun k => match k with O => None | _ => Some 7 end) ex_log_magnet ex_log_world ex_log_sched template cut None =
    Some (Ret [Fetching; Note (TrackerFailed 1 (TUdp (mkUU (bs "u") 80 [])) 7); Note (PeerFailed good_contact EConnect); Failed NothingFromPeers]) /\
  get_cmd show_url ex_cfg ex_pid ex_log_magnet ex_log_world ex_log_sched template cut None = Some (Ret ([], false)) /\
  (forall k, w_announce ex_log_world k <> Panic) /\ c_tracker_jobs ex_cfg <> 0 /\ c_peer_jobs ex_cfg <> 0.
Proof. intros show_url template cut. split; [vm_compute; reflexivity|]. split; [vm_compute; reflexivity|]. split; [discriminate|]. split; discriminate. Qed.
(** Three peers: the first fails, the second delivers; the third, which is still running, is not
    reported *)
Example C112_success_nonvacuous :
  let fetch p := Ret (if Nat.eqb p 2 then Some 9%nat else None) in
  exists s0 s hT hP, r_start (A := nat) 1 2 ([] : list nat) (Some [1; 2; 3]%nat) = Some s0 /\
    lrun (T := nat) (E := nat) Nat.eqb (fun p => p) (fun _ => Ret []) fetch (fun _ => None) (fun p => if Nat.eqb p 2 then None else Some p) s0
      [Job; Job; Job; Job; Job; Job; Pe (KTake 0); Pe (KTake 1); Pe (KCheck 0); Pe (KCheck 1); Pe (KStart 0); Pe (KStart 1); Pe (KFinish 0); Pe (KSend 0);
       Main; Pe (KTake 0); Pe (KCheck 0); Pe (KStart 0); Pe (KFinish 1); Pe (KSend 1); Main; Main; Main; Main] = Some (s, hT, hP, [PeerFailed 1%nat 1%nat]) /\
    r_main s = MReturned (Some 9%nat) /\ contacted hP = [1; 2; 3]%nat.
Proof. cbv zeta. eexists _, _, _, _. split; [reflexivity|]. split; [vm_compute; reflexivity|]. split; reflexivity. Qed.
(** Three magnet links, two at a time; the first fails *)
Example C112_batch_nonvacuous : exists s h,
  blrun (E := unit) (fun k => Ret (negb (Nat.eqb k 0))) (b_start (E := unit) 2 (Ok [5; 6; 7]))
    ([BMain; BMain; BWork (KTake 0); BMain] ++ map BWork [KTake 1; KCheck 1; KStart 1; KFinish 1; KSend 1] ++ [BMain; BMain] ++
     map BWork [KTake 1; KCheck 1; KStart 1; KFinish 1; KSend 1; KCheck 0; KStart 0; KFinish 0; KSend 0] ++ [BMain; BWork (KQuit 0); BWork (KQuit 1); BMain; BMain])
    = Some (s, h, [LinkFailed 0 5; Summary 2 3]) /\ b_main s = BExit false.
Proof. eexists _, _. split; [vm_compute; reflexivity|]. reflexivity. Qed.
