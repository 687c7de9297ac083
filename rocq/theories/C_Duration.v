(** Property C113: how long resolving a magnet link takes, given how long its jobs take.
    [dT], [dP]: the time each tracker query and each peer takes; [tau], [delta]: upper
    bounds of these ([tau] may be the announce timeout, C51).  An execution is any sequence
    of the tasks' actions (M_Resolve) and of time passing (M_Duration); it is [prompt] if
    time passes only when no task can act and not past the end of a job (S_Duration).
    Whatever time is reached, it is before the end or at it, as the clock stops there. *)
From Verif Require Import Base M_Nursery S_Nursery M_Resolve S_Resolve M_Net M_Http M_Magnet M_Config M_Get M_Batch M_Duration S_Duration P_Duration3 P_Duration4.
Local Open Scope nat_scope.

(** All workers are used: the time is at most what the tracker queries take together
    divided by [nt], plus what the peers take together divided by [np], plus that of one
    query and one peer. *)
Theorem C113_bound : forall (T P A M : Type) (addr_eqb : A -> A -> bool) (addr : P -> A), (forall a b, addr_eqb a b = true <-> a = b) ->
  forall announce fetch (dT : job T -> nat) (dP : job P -> nat) tau delta nt np (trackers : list T) dht s0 l (x : tst T P A M) hT hP,
  (forall j, dT j <= tau) -> (forall j, dP j <= delta) ->
  r_start nt np trackers dht = Some s0 ->
  trun addr_eqb addr announce fetch dT dP (t_start s0) l = Some (x, hT, hP) -> prompt addr_eqb addr announce fetch dT dP (t_start s0) l ->
  nt * np * t_now x <= np * total dT (started hT) + nt * total dP (started hP) + nt * np * (tau + delta).
Proof. exact @d_bound. Qed.
Print Assumptions C113_bound.
(** In terms of the numbers of trackers and of peers contacted *)
Theorem C113_numbers : forall (T P A M : Type) (addr_eqb : A -> A -> bool) (addr : P -> A), (forall a b, addr_eqb a b = true <-> a = b) ->
  forall announce fetch (dT : job T -> nat) (dP : job P -> nat) tau delta nt np (trackers : list T) dht s0 l (x : tst T P A M) hT hP,
  (forall j, dT j <= tau) -> (forall j, dP j <= delta) ->
  r_start nt np trackers dht = Some s0 ->
  trun addr_eqb addr announce fetch dT dP (t_start s0) l = Some (x, hT, hP) -> prompt addr_eqb addr announce fetch dT dP (t_start s0) l ->
  nt * np * t_now x <= np * (length trackers * tau) + nt * (length (contacted hP) * delta) + nt * np * (tau + delta).
Proof. exact @d_simple. Qed.
Print Assumptions C113_numbers.
(** For the command 'get' [nt] and [np] are the numbers configured. *)
Theorem C113_get : forall cfg pid m w (dT : job tracker -> nat) (dP : job contact -> nat) tau delta s0 l x hT hP,
  (forall j, dT j <= tau) -> (forall j, dP j <= delta) -> get_start cfg m w = Some s0 ->
  trun sa_eqb contact_addr (w_announce w) (contact_fetch cfg pid (mg_hash m) w) dT dP (t_start s0) l = Some (x, hT, hP) ->
  prompt sa_eqb contact_addr (w_announce w) (contact_fetch cfg pid (mg_hash m) w) dT dP (t_start s0) l ->
  let nt := N.to_nat (c_tracker_jobs cfg) in let np := N.to_nat (c_peer_jobs cfg) in
  nt * np * t_now x <= np * (length (mg_trackers m) * tau) + nt * (length (contacted hP) * delta) + nt * np * (tau + delta).
Proof. exact get_duration. Qed.
Print Assumptions C113_get.
(** Once a peer has given the metadata, no more time passes until the end. *)
Theorem C113_at_once : forall (T P A M : Type) (addr_eqb : A -> A -> bool) (addr : P -> A), (forall a b, addr_eqb a b = true <-> a = b) ->
  forall announce fetch (dT : job T -> nat) (dP : job P -> nat) nt np (trackers : list T) dht s0 l1 (x1 : tst T P A M) hT1 hP1 j i l2 x2 hT2 hP2,
  r_start nt np trackers dht = Some s0 ->
  trun addr_eqb addr announce fetch dT dP (t_start s0) l1 = Some (x1, hT1, hP1) -> In (j, Ret (Some i)) (finished hP1) ->
  trun addr_eqb addr announce fetch dT dP x1 l2 = Some (x2, hT2, hP2) -> prompt addr_eqb addr announce fetch dT dP x1 l2 ->
  t_now x2 = t_now x1.
Proof. exact @d_at_once. Qed.
Print Assumptions C113_at_once.
(** There always is an end: before it either a task can act or time can pass, *)
Theorem C113_goes_on : forall (T P A M : Type) (addr_eqb : A -> A -> bool) (addr : P -> A)
  announce fetch (dT : job T -> nat) (dP : job P -> nat) nt np (trackers : list T) dht s0 l (x : tst T P A M) hT hP,
  r_start nt np trackers dht = Some s0 -> trun addr_eqb addr announce fetch dT dP (t_start s0) l = Some (x, hT, hP) ->
  (forall r, r_main (t_r x) <> MReturned r) -> r_main (t_r x) <> MPanicked ->
  (forall a, tstep addr_eqb addr announce fetch dT dP x (Act a) = None) ->
  in_time dT dP x 1 /\ tstep addr_eqb addr announce fetch dT dP x (Wait 1) <> None.
Proof. exact @d_goes_on. Qed.
Print Assumptions C113_goes_on.
(** and no execution goes on for ever. *)
Theorem C113_ends : forall (T P A M : Type) (addr_eqb : A -> A -> bool) (addr : P -> A), (forall a b, addr_eqb a b = true <-> a = b) ->
  forall announce fetch (dT : job T -> nat) (dP : job P -> nat) tau delta nt np (trackers : list T) dht (s0 : rst T P A M), nt <> 0 -> np <> 0 ->
  (forall j, dT j <= tau) -> (forall j, dP j <= delta) ->
  r_start nt np trackers dht = Some s0 ->
  exists bound, forall l x hT hP,
    trun addr_eqb addr announce fetch dT dP (t_start s0) l = Some (x, hT, hP) -> prompt addr_eqb addr announce fetch dT dP (t_start s0) l ->
    (forall t, In (Wait t) l -> t <> 0) -> length l <= bound.
Proof. exact @d_ends. Qed.
Print Assumptions C113_ends.

(** Two trackers asked at the same time take 3; of three peers two at a time take 4, and the
    last has the metadata: 11 in all *)
Definition dx_announce (k : nat) : outcome (list nat) := match k with 0 => Ret [1; 2] | _ => Ret [2; 3] end.
Definition dx_fetch (p : nat) : outcome (option nat) := match p with 3 => Ret (Some 9) | _ => Ret None end.
Definition dx_run (work : nat -> wev -> rev) (w : nat) : list tev := map (fun e => Act (work w e)) [KTake w; KCheck w; KStart w].
Definition dx_got (work : nat -> wev -> rev) (w : nat) : list tev := map (fun e => Act (work w e)) [KFinish w; KSend w].
Definition dx_t (_ : nat) := Tr.
Definition dx_p (_ : nat) := Pe.
Definition dx_before : list tev :=
  map Act [Main; Main; Main] ++ dx_run dx_t 0 ++ dx_run dx_t 1 ++ [Wait 3] ++ dx_got dx_t 0 ++ dx_got dx_t 1 ++ map Act [Tr (KQuit 0); Tr (KQuit 1)] ++
  map Act [Job; Job; Job; Job; Job; Job; Job; Job; Job; Job] ++ dx_run dx_p 0 ++ dx_run dx_p 1 ++ [Wait 4] ++
  dx_got dx_p 0 ++ dx_got dx_p 1 ++ map Act [Main; Main] ++ dx_run dx_p 0 ++ [Act (Pe (KQuit 1)); Wait 4; Act (Pe (KFinish 0))].
Definition dx_after : list tev := map Act [Pe (KSend 0); Main; Main; Main; Main].
Notation dx_trun := (trun Nat.eqb (fun p => p) dx_announce dx_fetch (fun _ => 3) (fun _ => 4)).
Notation dx_prompt := (prompt Nat.eqb (fun p => p) dx_announce dx_fetch (fun _ => 3) (fun _ => 4)).
Lemma nth_none {X} w : @nth_error X [] w = None.
Proof. destruct w; reflexivity. Qed.
Notation dx_tstep := (tstep Nat.eqb (fun p => p) dx_announce dx_fetch (fun _ => 3) (fun _ => 4)).
Lemma dx_act (x : tst nat nat nat nat) a l x' o1 o2 : dx_tstep x (Act a) = Some (x', o1, o2) -> dx_prompt x' l -> dx_prompt x (Act a :: l).
Proof. intros E H. cbn [prompt]. rewrite E. split; [exact I|exact H]. Qed.
Lemma dx_wait (x : tst nat nat nat nat) d l x' o1 o2 : (forall a, dx_tstep x (Act a) = None) -> in_time (fun _ => 3) (fun _ => 4) x d ->
  dx_tstep x (Wait d) = Some (x', o1, o2) -> dx_prompt x' l -> dx_prompt x (Wait d :: l).
Proof. intros Q D E H. cbn [prompt]. rewrite E. split; [split; [exact Q|exact D]|exact H]. Qed.
Ltac dx_idle := intros [| | |[w|w|w|w|w|w|w]|[w|w|w|w|w|w|w]]; try (vm_compute; reflexivity);
  destruct w as [|[|w]]; try (vm_compute; reflexivity); cbn; rewrite ?nth_none; reflexivity.
Ltac dx_time := split; intros [|[|w]]; cbn; intros j E; rewrite ?nth_none in E; try discriminate E; repeat constructor.
Ltac dx_step :=
  match goal with
  | |- prompt _ _ _ _ _ _ ?x (?e :: _) =>
      let r := eval vm_compute in (dx_tstep x e) in
      match r with Some (?x', ?o1, ?o2) =>
        first [apply (dx_act x _ _ x' o1 o2); [vm_compute; reflexivity|] | apply (dx_wait x _ _ x' o1 o2); [dx_idle|dx_time|vm_compute; reflexivity|]]
      end
  end.
Example C113_nonvacuous : exists s0 x1 hT hP x2 hT2 hP2,
  r_start (A := nat) 2 2 [5; 6] None = Some s0 /\
  dx_trun (t_start s0) dx_before = Some (x1, hT, hP) /\ dx_prompt (t_start s0) dx_before /\ In ((2, 3), Ret (Some 9)) (finished hP) /\
  dx_trun x1 dx_after = Some (x2, hT2, hP2) /\ dx_prompt x1 dx_after /\ r_main (t_r x2) = MReturned (Some 9) /\ t_now x2 = 11.
Proof.
  let s := eval vm_compute in (r_start (P := nat) (A := nat) (M := nat) 2 2 [5; 6] None) in
  match s with Some ?s0 =>
    let r := eval vm_compute in (dx_trun (t_start s0) dx_before) in
    match r with Some (?x1, ?hT, ?hP) =>
      let q := eval vm_compute in (dx_trun x1 dx_after) in
      match q with Some (?x2, ?hT2, ?hP2) => exists s0, x1, hT, hP, x2, hT2, hP2 end
    end
  end.
  split; [vm_compute; reflexivity|]. split; [vm_compute; reflexivity|]. split.
  - let l := eval vm_compute in dx_before in change dx_before with l. repeat dx_step. exact I.
  - split; [vm_compute; auto 10|]. split; [vm_compute; reflexivity|]. split; [|split; reflexivity].
    let l := eval vm_compute in dx_after in change dx_after with l. repeat dx_step. exact I.
Qed.

(** The command 'batch' with [n] jobs: at most what the links take together divided by [n], plus
    what one takes *)
Theorem C113_batch : forall (Mg E : Type) download (d : job Mg -> nat) delta, (forall j, d j <= delta) ->
  forall n (parsed : res E (list Mg)) l x h,
  urun download d (u_start (b_start n parsed)) l = Some (x, h) -> batch_prompt download d (u_start (b_start n parsed)) l ->
  n * u_now x <= total d (started h) + n * delta.
Proof. exact @batch_duration. Qed.
Print Assumptions C113_batch.
Theorem C113_batch_numbers : forall (Mg E : Type) download (d : job Mg -> nat) delta, (forall j, d j <= delta) ->
  forall n (parsed : res E (list Mg)) links l x h, parsed = Ok links ->
  urun download d (u_start (b_start n parsed)) l = Some (x, h) -> batch_prompt download d (u_start (b_start n parsed)) l ->
  n * u_now x <= length links * delta + n * delta.
Proof. exact @batch_numbers. Qed.
Print Assumptions C113_batch_numbers.
Theorem C113_batch_goes_on : forall (Mg E : Type) download (d : job Mg -> nat) n (parsed : res E (list Mg)) l x h,
  urun download d (u_start (b_start n parsed)) l = Some (x, h) -> (forall ok, b_main (u_b x) <> BExit ok) -> b_main (u_b x) <> BPanicked ->
  (forall a, ustep download d x (UAct a) = None) ->
  (forall w j, nth_error (n_workers (b_pool (u_b x))) w = Some (WRunning j) -> u_now x + 1 <= u_began x w + d j) /\
  ustep download d x (UWait 1) <> None.
Proof. exact @batch_goes_on. Qed.
Print Assumptions C113_batch_goes_on.

(** Three links, two at a time, taking 5 each: 10 in all *)
Definition dy_run (w : nat) : list uev := map (fun e => UAct (BWork e)) [KTake w; KCheck w; KStart w].
Definition dy_got (w : nat) : list uev := map (fun e => UAct (BWork e)) [KFinish w; KSend w].
Definition dy : list uev :=
  map UAct [BMain; BMain; BMain; BMain] ++ dy_run 0 ++ dy_run 1 ++ [UWait 5] ++ dy_got 0 ++ dy_got 1 ++ map UAct [BMain; BMain] ++
  dy_run 0 ++ [UAct (BWork (KQuit 1)); UWait 5] ++ dy_got 0 ++ map UAct [BMain; BWork (KQuit 0); BMain].
Notation dy_ustep := (ustep (Mg := nat) (fun _ => Ret true) (fun _ => 5)).
Notation dy_prompt := (batch_prompt (Mg := nat) (fun _ => Ret true) (fun _ => 5)).
Lemma dy_act (x : ust nat) a l x' o : dy_ustep x (UAct a) = Some (x', o) -> dy_prompt x' l -> dy_prompt x (UAct a :: l).
Proof. intros E H. cbn [batch_prompt]. rewrite E. split; [exact I|exact H]. Qed.
Lemma dy_wait (x : ust nat) d l x' o : (forall a, dy_ustep x (UAct a) = None) ->
  (forall w j, nth_error (n_workers (b_pool (u_b x))) w = Some (WRunning j) -> u_now x + d <= u_began x w + 5) ->
  dy_ustep x (UWait d) = Some (x', o) -> dy_prompt x' l -> dy_prompt x (UWait d :: l).
Proof. intros Q D E H. cbn [batch_prompt]. rewrite E. split; [split; [exact Q|exact D]|exact H]. Qed.
Ltac dy_step :=
  match goal with
  | |- batch_prompt _ _ ?x (?e :: _) =>
      let r := eval vm_compute in (dy_ustep x e) in
      match r with Some (?x', ?o) =>
        first [apply (dy_act x _ _ x' o); [vm_compute; reflexivity|]
              |apply (dy_wait x _ _ x' o);
                [intros [|[w|w|w|w|w|w|w]]; try (vm_compute; reflexivity); destruct w as [|[|w]]; try (vm_compute; reflexivity); cbn; rewrite ?nth_none; reflexivity
                |intros [|[|w]]; cbn; intros j E; rewrite ?nth_none in E; try discriminate E; repeat constructor
                |vm_compute; reflexivity|]]
      end
  end.
Example C113_batch_nonvacuous : exists x h,
  urun (fun _ => Ret true) (fun _ => 5) (u_start (b_start (E := unit) 2 (Ok [7; 8; 9]))) dy = Some (x, h) /\
  dy_prompt (u_start (b_start (E := unit) 2 (Ok [7; 8; 9]))) dy /\ b_main (u_b x) = BExit true /\ u_now x = 10.
Proof.
  let r := eval vm_compute in (urun (fun _ => Ret true) (fun _ => 5) (u_start (b_start (E := unit) 2 (Ok [7; 8; 9]))) dy) in
  match r with Some (?x, ?h) => exists x, h end.
  split; [vm_compute; reflexivity|]. split; [|split; reflexivity]. let l := eval vm_compute in dy in change dy with l. repeat dy_step. exact I.
Qed.
