(** Property C115: the log on standard error.  [styled]: standard error is a terminal that shows
    colours; [f]: what --log-level says.  Specification: S_Stderr, S_Log. *)
From Verif Require Import Base M_Net M_Template M_Save M_Tracker M_Torrent M_Types M_Magnet M_Peer M_Session M_Config M_Udp M_GetInfo M_Mse M_Nursery M_Resolve M_Http M_Batch
  M_Get S_Get P_Get2 P_Get3 M_Announce M_Report S_Report C_Report M_Log S_Log C_Log P_Log M_Stderr S_Stderr P_Stderr P_Stderr2.

(** Nothing is lost, added, reordered or forged: two runs put the same on standard error exactly
    if the records wanted are the same, with the same times, levels and texts, in the same order. *)
Theorem C115_faithful : forall styled f f' l l' k k', kept (wanted f) l k -> kept (wanted f') l' k' ->
  Forall (fun e => time_of_day (e_time e) /\ one_line (e_text e)) k -> Forall (fun e => time_of_day (e_time e) /\ one_line (e_text e)) k' ->
  (stderr styled f l = stderr styled f' l' <-> map told k = map told k').
Proof. exact stderr_faithful. Qed.
Print Assumptions C115_faithful.
Definition ex_entries : list entry :=
  [ mkEntry (9, 5, 0) (bs "demagnetize::peer") Trace (bs "x");
    mkEntry (9, 5, 7) (bs "demagnetize") Warn (bs "10:00:00 [ERROR] y");
    mkEntry (23, 59, 60) (bs "demagnetizer") Debug (bs "z");
    mkEntry (23, 59, 60) (bs "reqwest::connect") Info (bs "") ].
Example C115_faithful_nonvacuous : exists k, kept (wanted (Some Debug)) ex_entries k /\ length k = 2%nat /\ Forall (fun e => time_of_day (e_time e) /\ one_line (e_text e)) k /\
  stderr false (Some Debug) ex_entries = bs "09:05:07 [WARN ] 10:00:00 [ERROR] y" ++ [x0a] ++ bs "23:59:60 [INFO ] " ++ [x0a] /\
  stderr true None ex_entries = x1b :: bs "[1m23:59:60 [INFO ] " ++ [x1b] ++ bs "[0m" ++ [x0a].
Proof.
  eexists. split; [apply filter_kept, shown_wanted|]. split; [reflexivity|]. split; [|split; reflexivity].
  cbn. repeat (apply Forall_cons; [split; [cbn; lia|unfold one_line; cbn; repeat (apply Forall_cons; [cbn; lia|]); apply Forall_nil]|]). apply Forall_nil.
Qed.

(** A greater --log-level only adds lines: those for the lesser one are those wanted by it. *)
Theorem C115_levels : forall styled f f' l k k', filter_verbosity f <= filter_verbosity f' -> kept (wanted f) l k -> kept (wanted f') l k' ->
  kept (wanted f) k' k /\ stderr styled f l = stderr styled f k'.
Proof.
  intros styled f f' l k k' L K K'. assert (W : kept (wanted f) k' k) by (apply (kept_weaker (wanted f) (wanted f') l); auto; intros e; apply wanted_more, L).
  split; [exact W|]. rewrite (stderr_bodies styled f l k K), (stderr_bodies styled f k' k W). reflexivity.
Qed.
Print Assumptions C115_levels.
Example C115_levels_nonvacuous : filter_verbosity None <= filter_verbosity (Some Debug) /\ kept (wanted None) ex_entries (filter (shown None) ex_entries) /\
  length (filter (shown None) ex_entries) = 1%nat /\ length (filter (shown (Some Debug)) ex_entries) = 2%nat /\ length (filter (shown (Some Trace)) ex_entries) = 3%nat.
Proof. split; [discriminate|]. split; [apply filter_kept, shown_wanted|]. auto. Qed.

(** The records about peers, trackers and DHT nodes (C110): one line each, in order, whatever was
    received. *)
Theorem C115_one_line_each : forall plain styled f l k, (forall c, control c -> plain c = false) -> Forall (fun tr => Forall clean (local_parts (snd tr))) l ->
  kept (fun tr => verbosity (record_level (snd tr)) <= filter_verbosity f) l k ->
  exists ls, lines_of (stderr styled f (map (record_entry plain) l)) ls /\
    Forall2 (fun tr line => exists before after, line = before ++ record_text plain (snd tr) ++ after) k ls.
Proof. exact stderr_records. Qed.
Print Assumptions C115_one_line_each.
(** Of these, WARN shows what went wrong and nothing else. *)
Theorem C115_failures : forall plain t r, about_failure r <-> wanted (Some Warn) (record_entry plain (t, r)).
Proof. exact failures_at_warn. Qed.
Print Assumptions C115_failures.
Definition ex_bad_subject : subject := mkSubject (Some (bs "a" ++ [x0a] ++ bs "10:00:00 [ERROR] b")) (repeat xab 20).
Example C115_one_line_nonvacuous :
  let l := [((10, 0, 1), LPeerFailed ex_bad_subject ex_peer (mkDetails HSend [] [] []) Disconnect); ((10, 0, 2), LMetadata ex_bad_subject ex_peer)] in
  Forall (fun tr => Forall clean (local_parts (snd tr))) l /\
  stderr false (Some Warn) (map (record_entry ex_plain) l) =
    bs "10:00:01 [WARN ] Failed to fetch info for ""a\n10:00:00 [ERROR] b"" (abababababababababababababababababababab) from <Peer 192.168.1.1:6881>: peer suddenly disconnected" ++ [x0a].
Proof. cbv zeta. split; [repeat (apply Forall_cons; [apply Forall_nil|]); apply Forall_nil|]. vm_compute. reflexivity. Qed.

(** Of the records of C112, 'get' with ERROR writes a line exactly if it fails, and then one;
    with WARN also one for each failure reported; by default also that it is at work; with OFF
    nothing. *)
Theorem C115_get : forall (E : Type) (te : nat -> option E) show_url cfg pid m w styled l template cut fail ops ok g es,
  get_cmd show_url cfg pid m w l template cut fail = Some (Ret (ops, ok)) -> get_log show_url cfg pid te m w l template cut fail = Some (Ret g) ->
  Forall2 (fun n e => is_entry (gnote_target n) (gnote_level n) e) g es -> Forall (fun e => one_line (e_text e)) es ->
  let last := if ok then 0%nat else 1%nat in
  (exists ls, lines_of (stderr styled (Some Error) es) ls /\ length ls = last) /\
  (exists ls, lines_of (stderr styled (Some Warn) es) ls /\ length ls = (length (notes_of g) + last)%nat) /\
  (exists ls, lines_of (stderr styled default_filter es) ls /\ length ls = (1 + length (notes_of g) + last)%nat) /\
  stderr styled None es = [].
Proof. intros E te show_url cfg pid m w. exact (get_lines te show_url cfg pid m w). Qed.
Print Assumptions C115_get.
(** 'batch' with ERROR writes one line for each magnet link that failed; by default also the
    numbers. *)
Theorem C115_batch : forall (Mg E : Type) styled download n (parsed : res E (list Mg)) l s h (g : list (bnote Mg E)) ok m0 more es,
  n <> 0%nat -> parsed = Ok (m0 :: more) -> blrun download (b_start n parsed) l = Some (s, h, g) -> b_main s = BExit ok ->
  Forall2 (fun n e => is_entry (bs "demagnetize") (bnote_level n) e) g es -> Forall (fun e => one_line (e_text e)) es ->
  exists fails, NoDup fails /\ (forall k, In k fails <-> (k < length (m0 :: more))%nat /\ download k = Ret false) /\
    (exists ls, lines_of (stderr styled (Some Error) es) ls /\ length ls = length fails) /\
    (exists ls, lines_of (stderr styled default_filter es) ls /\ length ls = S (length fails)).
Proof. intros Mg E. exact batch_lines. Qed.
Print Assumptions C115_batch.
(** The runs of C112_nonvacuous and C112_batch_nonvacuous, with some texts *)
Example C115_get_nonvacuous : forall show_url template cut, exists g,
  let es := map (fun n => mkEntry (1, 2, 3) (gnote_target n) (gnote_level n) (bs "text")) g in
  get_cmd show_url ex_cfg ex_pid ex_log_magnet ex_log_world ex_log_sched template cut None = Some (Ret ([], false)) /\
  get_log show_url ex_cfg ex_pid (fun k => if Nat.eqb k 1 then Some 7%nat else None) ex_log_magnet ex_log_world ex_log_sched template cut None = Some (Ret g) /\
  Forall2 (fun n e => is_entry (gnote_target n) (gnote_level n) e) g es /\ Forall (fun e => one_line (e_text e)) es /\ length (notes_of g) = 2%nat.
Proof.
  intros show_url template cut. eexists. split; [vm_compute; reflexivity|].
  split; [vm_compute; reflexivity|]. split; [repeat (apply Forall2_cons; [split; reflexivity|]); apply Forall2_nil|].
  split; [repeat (apply Forall_cons; [unfold one_line; cbn; repeat (apply Forall_cons; [cbn; lia|]); apply Forall_nil|]); apply Forall_nil|reflexivity].
Qed.
Example C115_batch_nonvacuous :
  let g : list (bnote nat unit) := [LinkFailed 0 5%nat; Summary 2 3] in
  let es := map (fun n => mkEntry (1, 2, 3) (bs "demagnetize") (bnote_level n) (bs "text")) g in
  Forall2 (fun n e => is_entry (bs "demagnetize") (bnote_level n) e) g es /\ Forall (fun e => one_line (e_text e)) es /\
  stderr false (Some Error) es = bs "01:02:03 [ERROR] text" ++ [x0a].
Proof.
  cbv zeta. split; [repeat (apply Forall2_cons; [split; reflexivity|]); apply Forall2_nil|].
  split; [repeat (apply Forall_cons; [unfold one_line; cbn; repeat (apply Forall_cons; [cbn; lia|]); apply Forall_nil|]); apply Forall_nil|reflexivity].
Qed.
