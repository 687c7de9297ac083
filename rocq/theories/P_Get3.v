(** An execution of the command 'get', for the examples *)
From Verif Require Import Base BaseFacts M_Net M_Sha1 M_Tracker M_Dht M_Torrent M_Template S_Template M_Save M_Types M_Udp M_Http M_Magnet M_Peer M_Session M_Mse M_GetInfo M_Config
  M_Nursery S_Nursery M_Resolve S_Resolve S_Quiet M_Write M_Get S_Get S_Bencode S_Download S_GetInfo P_Dht P_Download P_Session P_GetInfo3 P_Write4 P_Get P_Get2.

Section Ext.
Context {T P A M : Type} (addr_eqb : A -> A -> bool) (addr : P -> A) (announce : nat -> outcome (list P)) (f g : P -> outcome (option M)).
Hypothesis FG : forall p, f p = g p.
Lemma rstep_ext (s : rst T P A M) e : rstep addr_eqb addr announce f s e = rstep addr_eqb addr announce g s e.
Proof.
  destruct e as [| | |e|e]; try reflexivity. cbn [rstep]. replace (wstep (fun j => f (snd j)) (r_peers s) e) with (wstep (fun j => g (snd j)) (r_peers s) e); [reflexivity|].
  destruct e; try reflexivity. cbn [wstep]. destruct (nth_error _ _) as [[]|]; try reflexivity. now rewrite FG.
Qed.
Lemma rrun_ext l : forall s : rst T P A M, rrun addr_eqb addr announce f s l = rrun addr_eqb addr announce g s l.
Proof.
  induction l as [|e l IH]; intros s; [reflexivity|]. cbn [rrun]. rewrite rstep_ext. destruct (rstep _ _ _ g s e) as [[[? ?] ?]|]; [|reflexivity]. now rewrite IH.
Qed.
End Ext.

Definition ex_cfg : config := mkConfig 50 CPNever (Range 1025 65535) 50 1 30 3 1 60 30 [] 2.
Definition ex_pid : bytes := bs "-DM0070-aaaaaaaaaaaa".
Definition ex_magnet : magnet := mkMagnet (sha1 ex_data) None [TUdp (mkUU (bs "t") 80 [])].
Definition ex_world : world :=
  mkWorld (fun _ => Ret [good_contact]) None (fun _ => (0, (mkDial None [] [] 0 [], []), (mkDial (Some (ns 1, Ok tt)) (ex_reads 0) [] 0 [], []))) 1700000000000000000.
Definition ex_sched : list rev :=
  [Main; Tr (KTake 0); Tr (KCheck 0); Tr (KStart 0); Tr (KFinish 0); Tr (KSend 0); Main; Job; Job; Job; Tr (KQuit 0); Job;
   Pe (KTake 0); Pe (KCheck 0); Pe (KStart 0); Pe (KFinish 0); Pe (KSend 0); Main; Main; Main; Main; Pe (KAbort 0)].

Lemma good_fetch : contact_info ex_cfg ex_pid (sha1 ex_data) ex_world good_contact = Ret ([false], SDone (Ok (mkTI (sha1 ex_data) ex_data))).
Proof.
  unfold contact_info. cbn [w_meet ex_world]. unfold ex_cfg. cbn [c_encrypt c_handshake_timeout c_dh_timeout snd good_contact pr_crypto].
  rewrite get_info_w_nil. apply (get_info_plain (sha1 ex_data) ex_pid (sa_ip (contact_addr good_contact)) ex_data eq_refl ltac:(vm_compute; reflexivity) (proj1 ex_session) eq_refl ltac:(vm_compute; discriminate)
      None CPNever (ns 60) 30 0 _ _ (ns 1)); [auto|reflexivity|unfold ns; lia|exact (ex_plain 0)].
Qed.
Definition is_good (c : contact) : bool := Nat.eqb (fst c) 0 && peer_eqb (snd c) (snd good_contact).
Lemma is_good_spec c : is_good c = true -> c = good_contact.
Proof.
  unfold is_good. destruct c as [k p]. cbn [fst snd]. rewrite andb_true_iff, Nat.eqb_eq. intros (-> & E). apply peer_eqb_eq in E. subst p. reflexivity.
Qed.
Lemma ex_runs : exists s0 s hT hP, get_start ex_cfg ex_magnet ex_world = Some s0 /\ get_run ex_cfg ex_pid ex_magnet ex_world s0 ex_sched = Some (s, hT, hP) /\
  r_main s = MReturned (Some (mkTI (sha1 ex_data) ex_data)) /\ never_ends (hangs ex_cfg ex_pid (sha1 ex_data) ex_world) hP /\
  quiet sa_eqb contact_addr (w_announce ex_world) (contact_fetch ex_cfg ex_pid (sha1 ex_data) ex_world) (hangs ex_cfg ex_pid (sha1 ex_data) ex_world) s.
Proof.
  pose proof good_fetch as GF. set (i := mkTI (sha1 ex_data) ex_data) in *.
  set (fetch := contact_fetch ex_cfg ex_pid (sha1 ex_data) ex_world).
  assert (FG : forall c, fetch c = if is_good c then Ret (Some i) else fetch c).
  { intros c. destruct (is_good c) eqn:E; [|reflexivity]. apply is_good_spec in E. subst c. unfold fetch, contact_fetch. now rewrite GF. }
  assert (HF : hangs ex_cfg ex_pid (sha1 ex_data) ex_world good_contact = false) by (unfold hangs; now rewrite GF).
  unfold get_run. change (mg_hash ex_magnet) with (sha1 ex_data). fold fetch.
  generalize (hangs ex_cfg ex_pid (sha1 ex_data) ex_world), HF. intros hang HF'. clear GF HF. revert FG.
  generalize fetch. clear fetch. intros fetch FG. clearbody i.
  assert (R : forall f0 : contact -> outcome (option torrent_info), exists s0 s hT hP, get_start ex_cfg ex_magnet ex_world = Some s0 /\
     rrun sa_eqb contact_addr (w_announce ex_world) (fun c => if is_good c then Ret (Some i) else f0 c) s0 ex_sched = Some (s, hT, hP) /\
     r_main s = MReturned (Some i) /\ finished hP = [((0%nat, good_contact), Ret (Some i))] /\
     s = mkR (MReturned (Some i)) JDone (mkN [] true false 0 [WStopped] [] true 1) (mkN [] true false 0 [WStopped] [] false 1) [] [contact_addr good_contact] false true).
  { intros f0. do 4 eexists. split; [reflexivity|]. split; [vm_compute; reflexivity|]. split; [reflexivity|]. split; [reflexivity|]. reflexivity. }
  destruct (R fetch) as (s0 & s & hT & hP & R1 & R2 & R3 & R4 & R5). exists s0, s, hT, hP. split; [exact R1|].
  rewrite (rrun_ext _ _ _ _ _ FG). split; [exact R2|]. split; [exact R3|]. split.
  - intros j r X. rewrite R4 in X. destruct X as [X|[]]. injection X as <- <-. exact HF'.
  - intros e EN. exfalso. apply EN. rewrite R5. destruct e as [| | |e|e]; try reflexivity.
    + cbn [rstep r_trackers]. destruct e as [k|k|k|k|k|k|k]; destruct k as [|[|k]]; reflexivity.
    + cbn [rstep r_peers]. destruct e as [k|k|k|k|k|k|k]; destruct k as [|[|k]]; reflexivity.
Qed.
