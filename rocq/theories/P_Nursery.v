From Verif Require Import Base BaseFacts M_Nursery S_Nursery.
From Coq Require Import Permutation.
Local Open Scope nat_scope.

(** *** Lists *)
Lemma set_nth_split {A} (l : list A) i x y : nth_error l i = Some x ->
  exists a b, l = a ++ x :: b /\ set_nth l i y = a ++ y :: b.
Proof.
  intros H. destruct (nth_error_split _ _ H) as (a & b & -> & <-). exists a, b. split; [reflexivity|].
  unfold set_nth. rewrite firstn_app, firstn_all, Nat.sub_diag, skipn_app, skipn_all, Nat.sub_diag.
  cbn [firstn skipn app]. rewrite app_nil_r. reflexivity.
Qed.
Lemma set_nth_length {A} (l : list A) i y : length (set_nth l i y) = length l.
Proof.
  destruct (nth_error l i) as [x|] eqn:E.
  - destruct (set_nth_split l i x y E) as (a & b & -> & ->). rewrite !app_length. reflexivity.
  - apply nth_error_None in E. unfold set_nth. rewrite skipn_all2, firstn_all2 by lia. rewrite app_nil_r. reflexivity.
Qed.
Lemma set_nth_in {A} (l : list A) i x y z : nth_error l i = Some x -> In z (set_nth l i y) -> z = y \/ In z l.
Proof.
  intros E H. destruct (set_nth_split l i x y E) as (a & b & -> & S). rewrite S in H.
  apply in_app_or in H. destruct H as [H|[H|H]]; [right|left|right]; auto using in_or_app.
  apply in_or_app. right. right. exact H.
Qed.
Lemma set_nth_keeps {A} (l : list A) i x y z : nth_error l i = Some x -> In z l -> z = x \/ In z (set_nth l i y).
Proof.
  intros E H. destruct (set_nth_split l i x y E) as (a & b & -> & S). rewrite S.
  apply in_app_or in H. destruct H as [H|[H|H]]; [right|left; auto|right].
  - apply in_or_app; auto.
  - apply in_or_app. right. right. exact H.
Qed.
Lemma set_nth_new {A} (l : list A) i x y : nth_error l i = Some x -> In y (set_nth l i y).
Proof. intros E. destruct (set_nth_split l i x y E) as (a & b & -> & S). rewrite S. apply in_or_app. right. left. reflexivity. Qed.
(** Sum of [f] over a list. *)
Definition W {A} (f : A -> nat) (l : list A) : nat := list_sum (map f l).
Lemma W_app {A} (f : A -> nat) a b : W f (a ++ b) = W f a + W f b.
Proof. unfold W. rewrite map_app, list_sum_app. reflexivity. Qed.
Lemma W_cons {A} (f : A -> nat) x l : W f (x :: l) = f x + W f l.
Proof. reflexivity. Qed.
Lemma W_nil {A} (f : A -> nat) : W f [] = 0.
Proof. reflexivity. Qed.
Lemma W_set {A} (f : A -> nat) l i x y : nth_error l i = Some x -> W f (set_nth l i y) + f x = W f l + f y.
Proof.
  intros E. destruct (set_nth_split l i x y E) as (a & b & -> & ->). rewrite !W_app, !W_cons. lia.
Qed.
Lemma W_repeat {A} (f : A -> nat) x n : W f (repeat x n) = n * f x.
Proof. induction n; [reflexivity|]. cbn [repeat]. rewrite W_cons. lia. Qed.
Lemma W_le {A} (f : A -> nat) l x : In x l -> f x <= W f l.
Proof. induction l as [|y l IH]; intros []; rewrite W_cons; [subst; lia|]. specialize (IH H). lia. Qed.
Lemma W_bound {A} (f : A -> nat) c l : (forall x, f x <= c) -> W f l <= c * length l.
Proof. intros H. induction l as [|y l IH]; rewrite ?W_cons; cbn [length]; [rewrite W_nil; lia|]. specialize (H y). lia. Qed.
Lemma W_zero {A} (f : A -> nat) l : (forall x, In x l -> f x = 0) -> W f l = 0.
Proof. induction l as [|y l IH]; intros H; [reflexivity|]. rewrite W_cons, (H y) by (left; reflexivity). apply IH. intros x Hx. apply H. right. exact Hx. Qed.

Ltac conjs := repeat match goal with |- _ /\ _ => split end.
Section P.
Context {J R : Type}.
Implicit Types (h : list (obs J R)) (s : nst J R) (l : list (nev J R)).

(** How often job number [k] occurs. *)
Definition is_job (k : nat) (j : job J) : nat := if Nat.eqb (fst j) k then 1 else 0.
Definition cj (k : nat) (js : list (job J)) : nat := W (is_job k) js.
Definition f_pre (k : nat) (w : wstate J R) : nat := match w with WGot j | WReady j => is_job k j | _ => 0 end.
Definition f_run (k : nat) (w : wstate J R) : nat := match w with WRunning j => is_job k j | _ => 0 end.
Definition f_send (k : nat) (w : wstate J R) : nat := match w with WSending j _ => is_job k j | _ => 0 end.
Definition holds (w : wstate J R) (j : job J) : Prop :=
  match w with WGot x | WReady x | WRunning x | WSending x _ => x = j | _ => False end.
Definition running1 (w : wstate J R) : nat := match w with WRunning _ => 1 | _ => 0 end.

Lemma cj_app k a b : cj k (a ++ b) = cj k a + cj k b.
Proof. apply W_app. Qed.
Lemma cj_cons k j a : cj k (j :: a) = is_job k j + cj k a.
Proof. reflexivity. Qed.
Lemma cj_nil k : cj k [] = 0.
Proof. reflexivity. Qed.
Lemma pick_app {A} (f : obs J R -> option A) a b : pick f (a ++ b) = pick f a ++ pick f b.
Proof. apply flat_map_app. Qed.

Record inv (n : nat) (s : nst J R) (h : list (obs J R)) : Prop := {
  i_num : map fst (accepted h) = seq 0 (n_next s);
  i_queue : accepted h = taken h ++ n_queue s;
  i_pre : forall k, cj k (taken h) = cj k (started h) + cj k (discarded h) + W (f_pre k) (n_workers s);
  i_run : forall k, cj k (started h) = cj k (map fst (finished h)) + cj k (aborted h) + W (f_run k) (n_workers s);
  i_send : forall k, cj k (map fst (finished h)) = W (f_send k) (n_workers s) + cj k (map fst (n_out s))
             + cj k (map fst (delivered h)) + cj k (map fst (lost h));
  i_count : length (started h) = length (finished h) + length (aborted h) + W running1 (n_workers s);
  i_len : length (n_workers s) = n;
  i_from : forall j, In j (taken h) \/ In j (started h) \/ In j (discarded h) \/ In j (map fst (finished h)) \/ In j (aborted h)
             \/ (exists w, In w (n_workers s) /\ holds w j) -> In j (accepted h);
  i_res : forall j r, In (WSending j r) (n_workers s) \/ In (j, r) (n_out s) \/ In (j, r) (delivered h) \/ In (j, r) (lost h) ->
             In (j, r) (finished h);
  i_res' : forall j r, In (j, r) (finished h) ->
             In (WSending j r) (n_workers s) \/ In (j, r) (n_out s) \/ In (j, r) (delivered h) \/ In (j, r) (lost h);
  i_alive : n_alive s = true -> aborted h = [] /\ lost h = [];
  i_disc : n_alive s = true -> n_done s = false -> discarded h = [];
  i_closed : n_handles s = 0 \/ n_done s = true \/ (n_alive s = true /\ In WStopped (n_workers s)) -> n_closed s = true;
  i_end : In OEnd h -> n_alive s = true -> n_out s = [] /\ forall w, In w (n_workers s) -> w = WStopped;
  i_stop : forall w, In w (n_workers s) -> w = WStopped -> n_alive s = true -> n_done s = false -> n_queue s = []
}.
Lemma inv_new n : inv n (new n) [].
Proof.
  unfold new. split; cbn [n_queue n_closed n_done n_handles n_workers n_out n_alive n_next map]; try reflexivity.
  - intros k. rewrite W_repeat. cbn. lia.
  - intros k. rewrite W_repeat. cbn. lia.
  - intros k. rewrite W_repeat. cbn. lia.
  - rewrite W_repeat. cbn. lia.
  - apply repeat_length.
  - intros j [[]|[[]|[[]|[[]|[[]|(w & IN & H)]]]]]. apply repeat_spec in IN. subst w. destruct H.
  - intros j r [H|[[]|[[]|[]]]]. apply repeat_spec in H. discriminate.
  - intros j r [].
  - auto.
  - intros [H|[H|(_ & H)]]; [discriminate|discriminate|]. apply repeat_spec in H. discriminate.
  - intros [].
Qed.
Lemma nrun_app l1 l2 s : nrun s (l1 ++ l2) =
  match nrun s l1 with
  | Some (s1, h1) => match nrun s1 l2 with Some (s2, h2) => Some (s2, h1 ++ h2) | None => None end
  | None => None
  end.
Proof.
  revert s. induction l1 as [|e l1 IH]; intros s; cbn [nrun app].
  - destruct (nrun s l2) as [[s2 h2]|]; reflexivity.
  - destruct (nstep s e) as [[s1 o1]|]; [|reflexivity]. rewrite IH.
    destruct (nrun s1 l1) as [[s2 h2]|]; [|reflexivity].
    destruct (nrun s2 l2) as [[s3 h3]|]; [|reflexivity]. rewrite app_assoc. reflexivity.
Qed.
Lemma accepted_snoc h o : accepted (h ++ [o]) = accepted h ++ match o with OAccept j => [j] | _ => [] end.
Proof. unfold accepted. rewrite pick_app. destruct o; reflexivity. Qed.
Lemma taken_snoc h o : taken (h ++ [o]) = taken h ++ match o with OTake j => [j] | _ => [] end.
Proof. unfold taken. rewrite pick_app. destruct o; reflexivity. Qed.
Lemma discarded_snoc h o : discarded (h ++ [o]) = discarded h ++ match o with ODiscard j => [j] | _ => [] end.
Proof. unfold discarded. rewrite pick_app. destruct o; reflexivity. Qed.
Lemma started_snoc h o : started (h ++ [o]) = started h ++ match o with OStart j => [j] | _ => [] end.
Proof. unfold started. rewrite pick_app. destruct o; reflexivity. Qed.
Lemma finished_snoc h o : finished (h ++ [o]) = finished h ++ match o with OFinish j r => [(j, r)] | _ => [] end.
Proof. unfold finished. rewrite pick_app. destruct o; reflexivity. Qed.
Lemma aborted_snoc h o : aborted (h ++ [o]) = aborted h ++ match o with OAbort j => [j] | _ => [] end.
Proof. unfold aborted. rewrite pick_app. destruct o; reflexivity. Qed.
Lemma lost_snoc h o : lost (h ++ [o]) = lost h ++ match o with OLost j r => [(j, r)] | _ => [] end.
Proof. unfold lost. rewrite pick_app. destruct o; reflexivity. Qed.
Lemma delivered_snoc h o : delivered (h ++ [o]) = delivered h ++ match o with ODeliver j r => [(j, r)] | _ => [] end.
Proof. unfold delivered. rewrite pick_app. destruct o; reflexivity. Qed.
Ltac proj := rewrite ?accepted_snoc, ?taken_snoc, ?discarded_snoc, ?started_snoc, ?finished_snoc, ?aborted_snoc, ?lost_snoc, ?delivered_snoc;
  cbv iota; rewrite ?map_app; cbn [map fst];
  rewrite ?app_nil_r, ?cj_app, ?cj_cons, ?cj_nil, ?app_length; cbn [length].
Ltac fields := cbn [set_w n_queue n_closed n_done n_handles n_workers n_out n_alive n_next].
Ltac inh E := repeat match goal with
  | H : In _ (_ ++ _) |- _ => apply in_app_or in H; destruct H as [H|H]
  | H : In _ [_] |- _ => destruct H as [H|[]]; [first [discriminate H | injection H as <- | injection H as <- <- | idtac]]
  | H : In _ [] |- _ => destruct H
  | H : In _ (set_nth _ _ _) |- _ => destruct (set_nth_in _ _ _ _ _ E H) as [?|?]; clear H
  | H : _ \/ _ |- _ => destruct H
  | H : exists _, _ |- _ => destruct H
  | H : _ /\ _ |- _ => destruct H
  end.
Ltac disj := first [assumption | reflexivity | (left; disj) | (right; disj) | (split; disj)
  | (eexists; split; [eassumption|first [reflexivity|assumption]]) | (eapply nth_error_In; eassumption) ].
Ltac worker E y :=
  match type of E with nth_error (n_workers ?s) ?w = Some ?x =>
  match goal with I0 : inv _ s ?h |- _ =>
  split; fields; proj; try assumption;
  try (intros k; rewrite ?map_app, ?cj_app; cbn [map fst]; rewrite ?cj_cons, ?cj_nil;
       pose proof (W_set (f_pre k) _ _ _ y E); pose proof (W_set (f_run k) _ _ _ y E); pose proof (W_set (f_send k) _ _ _ y E);
       pose proof (i_pre _ _ _ I0 k); pose proof (i_run _ _ _ I0 k); pose proof (i_send _ _ _ I0 k);
       cbn [f_pre f_run f_send] in *; lia);
  try (pose proof (W_set running1 _ _ _ y E); pose proof (i_count _ _ _ I0); cbn [running1] in *; lia);
  try (rewrite set_nth_length; exact (i_len _ _ _ I0));
  try (intros; inh E; subst; try match goal with H : WSending _ _ = WSending _ _ |- _ => injection H as ? ?; subst end; cbn [holds] in *; subst; try contradiction; try discriminate;
       first [assumption | congruence | (apply (i_disc _ _ _ I0); assumption) | (apply (i_alive _ _ _ I0); assumption) | (eapply (i_stop _ _ _ I0); eassumption || reflexivity) | apply (i_from _ _ _ I0); disj
             | apply (i_res _ _ _ I0); disj
             | apply in_or_app; first [left; apply (i_res _ _ _ I0); disj | right; left; reflexivity]
             | apply (i_closed _ _ _ I0); disj
             | (* i_res' *)
               match goal with H : In (_, _) (finished _) |- _ =>
                 destruct (i_res' _ _ _ I0 _ _ H) as [Z|[Z|[Z|Z]]];
                 [destruct (set_nth_keeps _ _ _ y _ E Z) as [Z'|Z']; [first [discriminate Z'|injection Z' as -> ->]|]| | |];
                 rewrite ?in_app_iff; cbn [In]; disj
               | _ => rewrite ?in_app_iff; left; eapply set_nth_new; eassumption end
             | (* i_end *)
               match goal with H : In OEnd _ |- _ => exfalso;
                 let X := fresh in pose proof (proj2 (i_end _ _ _ I0 H ltac:(assumption)) _ (nth_error_In _ _ E)) as X; discriminate X end
             ])
  end end.
Lemma drop_none {A} (f : obs J R -> option A) h (q : list (job J * outcome R)) : (forall j r, f (OLost j r) = None) ->
  pick f (h ++ map (fun p => OLost (fst p) (snd p)) q) = pick f h.
Proof.
  intros H. rewrite pick_app. rewrite <- (app_nil_r (pick f h)) at 2. f_equal. induction q as [|[j r] q IH]; [reflexivity|].
  unfold pick in *. cbn [map flat_map fst snd]. rewrite H. exact IH.
Qed.
Lemma drop_all (q : list (job J * outcome R)) : lost (map (fun p => OLost (fst p) (snd p)) q) = q.
Proof. induction q as [|[j r] q IH]; [reflexivity|]. unfold lost, pick in *. cbn [map flat_map fst snd app]. f_equal. exact IH. Qed.
Ltac inw IN := apply in_app_or in IN.
Lemma inv_step n s h e s' o : inv n s h -> nstep s e = Some (s', o) -> inv n s' (h ++ o).
Proof.
  intros I0 ST. pose proof I0 as [NUM QU PRE RUN SND CNT LEN FROM RES RES' AL DI CL EN STP].
  destruct e; cbn [nstep] in ST.
  - (* Spawn *)
    destruct (n_handles s) as [|hs] eqn:HS; [discriminate|]. destruct (n_closed s) eqn:C.
    + injection ST as <- <-. split; proj; auto. intros H. apply EN. inw H. destruct H as [H|[H|[]]]; [exact H|discriminate].
    + injection ST as <- <-. split; fields; proj; auto.
      * rewrite seq_S. apply f_equal2; [exact NUM|reflexivity].
      * rewrite QU, app_assoc. reflexivity.
      * intros x H. apply in_or_app. left. apply FROM. exact H.
      * intros H. apply EN. inw H. destruct H as [H|[H|[]]]; [exact H|discriminate].
      * intros w IN -> A D. assert (false = true) by (apply CL; auto). discriminate.
  - (* Clone *)
    destruct (n_handles s) as [|hs] eqn:HS; [discriminate|]. injection ST as <- <-. rewrite app_nil_r. split; fields; auto.
    intros [H|H]; [discriminate|]. apply CL. auto.
  - (* DropHandle *)
    destruct (n_handles s) as [|hs] eqn:HS; [discriminate|]. injection ST as <- <-. rewrite app_nil_r. split; fields; auto.
    intros [->|H]; [apply orb_true_r|]. rewrite CL by auto. reflexivity.
  - (* Close *)
    injection ST as <- <-. rewrite app_nil_r. split; fields; auto.
  - (* Shutdown *)
    destruct (n_closed s); [|discriminate]. injection ST as <- <-. rewrite app_nil_r. split; fields; auto; intros; discriminate.
  - (* Take *)
    destruct (nth_error (n_workers s) w) as [[| | | | |]|] eqn:E; try discriminate. destruct (n_queue s) as [|j q] eqn:Q; [discriminate|].
    injection ST as <- <-.
    assert (IJ : In j (accepted h)) by (rewrite QU; apply in_or_app; right; left; reflexivity).
    worker E (@WGot J R j).
    + rewrite QU, <- app_assoc. reflexivity.
    + intros v IN -> A D. destruct (set_nth_in _ _ _ _ _ E IN) as [X|X]; [discriminate|]. specialize (STP _ X eq_refl A D). discriminate.
  - (* Check *)
    destruct (nth_error (n_workers s) w) as [[|j| | | |]|] eqn:E; try discriminate.
    assert (IJ : In j (accepted h)) by (apply FROM; do 5 right; exists (WGot j); split; [eapply nth_error_In; eauto|reflexivity]).
    destruct (n_done s) eqn:D; injection ST as <- <-.
    + worker E (@WStopped J R).
    + rewrite app_nil_r. worker E (@WReady J R j).
  - (* Start *)
    destruct (nth_error (n_workers s) w) as [[| |j| | |]|] eqn:E; try discriminate.
    assert (IJ : In j (accepted h)) by (apply FROM; do 5 right; exists (WReady j); split; [eapply nth_error_In; eauto|reflexivity]).
    injection ST as <- <-. worker E (@WRunning J R j).
  - (* Finish *)
    destruct (nth_error (n_workers s) w) as [[| | |j| |]|] eqn:E; try discriminate.
    assert (IJ : In j (accepted h)) by (apply FROM; do 5 right; exists (WRunning j); split; [eapply nth_error_In; eauto|reflexivity]).
    injection ST as <- <-. worker E (@WSending J R j r).
  - (* Send *)
    destruct (nth_error (n_workers s) w) as [[| | | |j r|]|] eqn:E; try discriminate.
    assert (IJ : In j (accepted h)) by (apply FROM; do 5 right; exists (WSending j r); split; [eapply nth_error_In; eauto|reflexivity]).
    destruct (n_alive s) eqn:A; injection ST as <- <-.
    + rewrite app_nil_r. worker E (@WIdle J R).
    + worker E (@WStopped J R).
  - (* Quit *)
    destruct (nth_error (n_workers s) w) as [[| | | | |]|] eqn:E; try discriminate. destruct (n_queue s) eqn:Q; try discriminate.
    destruct (n_closed s) eqn:C; [|discriminate]. injection ST as <- <-. rewrite app_nil_r. worker E (@WStopped J R).
  - (* Recv *)
    destruct (n_alive s) eqn:A; [|discriminate]. destruct (n_out s) as [|[j r] out] eqn:O; [discriminate|]. injection ST as <- <-.
    cbn [map fst] in SND. split; fields; proj; auto.
    + intros k. rewrite cj_app. specialize (SND k). rewrite cj_cons in *. rewrite cj_nil. lia.
    + intros x y H. apply RES. rewrite in_app_iff in H. cbn [In] in *. tauto.
    + intros x y H. apply RES' in H. rewrite in_app_iff. cbn [In] in *. tauto.
    + intros H _. inw H. destruct H as [H|[H|[]]]; [|discriminate]. destruct (EN H eq_refl) as (X & _). discriminate X.
  - (* End *)
    destruct (n_out s) eqn:O; [|discriminate]. destruct (n_alive s && forallb is_stopped (n_workers s)) eqn:B; [|discriminate].
    injection ST as <- <-. apply andb_true_iff in B. destruct B as (A & B). rewrite forallb_forall in B.
    split; proj; auto; rewrite ?O; auto. intros _ _. split; [reflexivity|]. intros w IN. specialize (B w IN). destruct w; (reflexivity || discriminate).
  - (* DropStream *)
    destruct (n_alive s) eqn:A; [|discriminate]. injection ST as <- <-.
    set (o := map (fun p => OLost (fst p) (snd p)) (n_out s)).
    assert (E1 : accepted (h ++ o) = accepted h) by (apply drop_none; reflexivity).
    assert (E2 : taken (h ++ o) = taken h) by (apply drop_none; reflexivity).
    assert (E3 : discarded (h ++ o) = discarded h) by (apply drop_none; reflexivity).
    assert (E4 : started (h ++ o) = started h) by (apply drop_none; reflexivity).
    assert (E5 : finished (h ++ o) = finished h) by (apply drop_none; reflexivity).
    assert (E6 : aborted (h ++ o) = aborted h) by (apply drop_none; reflexivity).
    assert (E7 : delivered (h ++ o) = delivered h) by (apply drop_none; reflexivity).
    assert (E8 : lost (h ++ o) = lost h ++ n_out s).
    { unfold lost. rewrite pick_app. f_equal. apply drop_all. }
    split; fields; rewrite ?E1, ?E2, ?E3, ?E4, ?E5, ?E6, ?E7, ?E8; auto; try discriminate.
    + intros k. rewrite map_app, cj_app. cbn [map]. rewrite cj_nil. specialize (SND k). lia.
    + intros x y H. apply RES. rewrite in_app_iff in H. cbn [In] in H. tauto.
    + intros x y H. apply RES' in H. rewrite in_app_iff. cbn [In]. tauto.
    + intros [H|[H|(H & _)]]; [apply CL; auto|apply CL; auto|discriminate].
  - (* Abort *) 
    destruct (n_alive s) eqn:A; [discriminate|].
    destruct (nth_error (n_workers s) w) as [[|j|j|j|j r|]|] eqn:E; try discriminate; injection ST as <- <-.
    + rewrite app_nil_r. worker E (@WStopped J R).
    + assert (IJ : In j (accepted h)) by (apply FROM; do 5 right; exists (WGot j); split; [eapply nth_error_In; eauto|reflexivity]).
      worker E (@WStopped J R).
    + assert (IJ : In j (accepted h)) by (apply FROM; do 5 right; exists (WReady j); split; [eapply nth_error_In; eauto|reflexivity]).
      worker E (@WStopped J R).
    + assert (IJ : In j (accepted h)) by (apply FROM; do 5 right; exists (WRunning j); split; [eapply nth_error_In; eauto|reflexivity]).
      worker E (@WStopped J R).
    + assert (IJ : In j (accepted h)) by (apply FROM; do 5 right; exists (WSending j r); split; [eapply nth_error_In; eauto|reflexivity]).
      worker E (@WStopped J R).
Qed.
Lemma inv_run n l : forall s h s' h', inv n s h -> nrun s l = Some (s', h') -> inv n s' (h ++ h').
Proof.
  induction l as [|e l IH]; intros s h s' h' I0 H; cbn [nrun] in H.
  - injection H as <- <-. rewrite app_nil_r. exact I0.
  - destruct (nstep s e) as [[s1 o1]|] eqn:E; [|discriminate]. destruct (nrun s1 l) as [[s2 h2]|] eqn:E2; [|discriminate].
    injection H as <- <-. rewrite app_assoc. eapply IH; [|exact E2]. eapply inv_step; eauto.
Qed.
Lemma reach n l s h : nrun (new n) l = Some (s, h) -> inv n s h.
Proof. intros H. exact (inv_run n l _ [] _ _ (inv_new n) H). Qed.

(** *** Flags *)
Lemma step_flags s e s' o : nstep s e = Some (s', o) ->
  n_alive s' = (n_alive s && match e with DropStream => false | _ => true end) /\
  n_done s' = (n_done s || match e with Shutdown => true | _ => false end) /\
  (n_closed s' = true <-> n_closed s = true \/ e = Close \/ (e = DropHandle /\ n_handles s' = 0)) /\
  (n_handles s = 0 -> n_handles s' = 0).
Proof.
  intros H. destruct e; cbn [nstep] in H;
  repeat match type of H with
  | match ?x with _ => _ end = Some _ => destruct x eqn:?; try discriminate
  | (if ?x then _ else _) = Some _ => destruct x eqn:?; try discriminate
  end; injection H as <- <-; cbn [set_w n_queue n_closed n_done n_handles n_workers n_out n_alive n_next];
  rewrite ?andb_true_r, ?andb_false_r, ?orb_false_r, ?orb_true_r; conjs; auto; try congruence;
  try (split; [auto|]; intros [?|[?|(? & ?)]]; congruence); try (split; intros; auto; congruence).
  rewrite orb_true_iff, Nat.eqb_eq. split; [intros [?|?]; auto|intros [?|[?|(? & ?)]]; auto; discriminate].
Qed.
Lemma run_flags l : forall s s' h, nrun s l = Some (s', h) ->
  (n_alive s' = true <-> n_alive s = true /\ ~ In DropStream l) /\
  (n_done s' = true <-> n_done s = true \/ In Shutdown l) /\
  (n_closed s' = true -> n_closed s = true \/ In Close l \/ n_handles s' = 0) /\
  (n_closed s = true \/ In Close l -> n_closed s' = true) /\
  (n_handles s = 0 -> n_handles s' = 0).
Proof.
  induction l as [|e l IH]; intros s s' h H; cbn [nrun] in H.
  - injection H as <- <-. cbn [In]. tauto.
  - destruct (nstep s e) as [[s1 o1]|] eqn:E; [|discriminate]. destruct (nrun s1 l) as [[s2 h2]|] eqn:E2; [|discriminate].
    injection H as <- <-. destruct (IH _ _ _ E2) as (A & D & C & C' & Z). destruct (step_flags _ _ _ _ E) as (A1 & D1 & C1 & Z1).
    cbn [In]. conjs.
    + rewrite A, A1, andb_true_iff. destruct e; intuition congruence.
    + rewrite D, D1, orb_true_iff. destruct e; intuition congruence.
    + intros X. apply C in X. rewrite C1 in X. destruct X as [[X|[X|(X & Y)]]|[X|X]]; auto.
    + intros [X|[X|X]]; apply C'; rewrite ?C1; auto.
    + auto.
Qed.
Lemma reach_flags n l s h : nrun (new n) l = Some (s, h) ->
  (n_alive s = true <-> ~ In DropStream l) /\ (n_done s = true <-> In Shutdown l) /\
  (n_closed s = true -> In Close l \/ n_handles s = 0) /\ (In Close l -> n_closed s = true).
Proof.
  intros H. destruct (run_flags _ _ _ _ H) as (A & D & C & C' & _). cbn [new n_alive n_done n_closed] in *. conjs.
  - rewrite A. tauto.
  - rewrite D. intuition discriminate.
  - intros X. apply C in X. intuition discriminate.
  - auto.
Qed.

(** *** Counting *)
Lemma cj_count k (js : list (job J)) : cj k js = count_occ Nat.eq_dec (map fst js) k.
Proof.
  induction js as [|j js IH]; [reflexivity|]. rewrite cj_cons. cbn [map count_occ]. unfold is_job.
  destruct (Nat.eq_dec (fst j) k) as [->|X]; [rewrite Nat.eqb_refl|apply Nat.eqb_neq in X; rewrite X]; lia.
Qed.
Lemma cj_in j (js : list (job J)) : In j js -> 1 <= cj (fst j) js.
Proof. intros H. rewrite cj_count. apply (in_map fst) in H. apply (count_occ_In Nat.eq_dec) in H. lia. Qed.
Lemma cj_out k (js : list (job J)) : 1 <= cj k js -> exists j, In j js /\ fst j = k.
Proof.
  rewrite cj_count. intros H. assert (X : In k (map fst js)) by (apply (count_occ_In Nat.eq_dec); lia).
  apply in_map_iff in X. destruct X as (j & A & B). eauto.
Qed.
Lemma nodup_cj (js : list (job J)) : (forall k, cj k js <= 1) -> NoDup (map fst js).
Proof. intros H. apply (NoDup_count_occ Nat.eq_dec). intros k. rewrite <- cj_count. apply H. Qed.
Lemma cj_nodup k (js : list (job J)) : NoDup (map fst js) -> cj k js <= 1.
Proof. intros H. rewrite cj_count. apply (NoDup_count_occ Nat.eq_dec). exact H. Qed.
Lemma nodup_fst (js : list (job J)) : NoDup (map fst js) -> NoDup js.
Proof. apply NoDup_map_inv. Qed.
Lemma fst_inj (js : list (job J)) x y : NoDup (map fst js) -> In x js -> In y js -> fst x = fst y -> x = y.
Proof.
  induction js as [|j js IH]; intros N X Y E; [destruct X|]. cbn [map] in N. apply NoDup_cons_iff in N. destruct N as (N1 & N2).
  destruct X as [->|X], Y as [->|Y]; auto.
  - exfalso. apply N1. rewrite E. apply in_map. exact Y.
  - exfalso. apply N1. rewrite <- E. apply in_map. exact X.
Qed.
Lemma perm_counts (js acc : list (job J)) : incl js acc -> NoDup (map fst acc) -> (forall k, cj k js = cj k acc) -> Permutation js acc.
Proof.
  intros IN ND EQ. assert (ND' : NoDup (map fst js)) by (apply nodup_cj; intros k; rewrite EQ; apply cj_nodup; exact ND).
  apply NoDup_Permutation; [apply nodup_fst; exact ND'|apply nodup_fst; exact ND|]. intros x. split; [apply IN|].
  intros X. pose proof (cj_in _ _ X) as C. rewrite <- EQ in C. destruct (cj_out _ _ C) as (y & Y & E).
  rewrite <- (fst_inj acc y x ND (IN _ Y) X E). exact Y.
Qed.
Lemma incl_counts (a b acc : list (job J)) : incl a acc -> incl b acc -> NoDup (map fst acc) -> (forall k, cj k a <= cj k b) -> incl a b.
Proof.
  intros IA IB ND LE x X. pose proof (cj_in _ _ X) as C. specialize (LE (fst x)). destruct (cj_out (fst x) b) as (y & Y & E); [lia|].
  rewrite <- (fst_inj acc y x ND (IB _ Y) (IA _ X) E). exact Y.
Qed.
Lemma acc_nodup n s h : inv n s h -> NoDup (map fst (accepted h)).
Proof. intros I0. rewrite (i_num _ _ _ I0). apply seq_NoDup. Qed.

(** *** The properties *)
Lemma concurrency n l s h : nrun (new n) l = Some (s, h) -> length (started h) <= n + length (finished h) + length (aborted h).
Proof.
  intros H. apply reach in H. pose proof (i_count _ _ _ H). pose proof (i_len _ _ _ H).
  pose proof (W_bound running1 1 (n_workers s) ltac:(intros []; cbn; lia)). lia.
Qed.
Lemma once n l s h : nrun (new n) l = Some (s, h) ->
  map fst (accepted h) = seq 0 (length (accepted h)) /\
  (exists waiting, accepted h = taken h ++ waiting) /\
  NoDup (started h) /\ incl (started h) (taken h) /\
  NoDup (map fst (finished h)) /\ incl (map fst (finished h)) (started h) /\
  NoDup (map fst (delivered h)) /\ incl (delivered h) (finished h).
Proof.
  intros H. apply reach in H. pose proof (acc_nodup _ _ _ H) as ND.
  assert (LT : forall k, cj k (taken h) <= cj k (accepted h)) by (intros k; rewrite (i_queue _ _ _ H), cj_app; lia).
  assert (LS : forall k, cj k (started h) <= cj k (taken h)) by (intros k; pose proof (i_pre _ _ _ H k); lia).
  assert (LF : forall k, cj k (map fst (finished h)) <= cj k (started h)) by (intros k; pose proof (i_run _ _ _ H k); lia).
  assert (LD : forall k, cj k (map fst (delivered h)) <= cj k (map fst (finished h))) by (intros k; pose proof (i_send _ _ _ H k); lia).
  assert (L1 : forall k, cj k (accepted h) <= 1) by (intros k; apply cj_nodup, ND).
  assert (IT : incl (taken h) (accepted h)) by (intros x X; apply (i_from _ _ _ H); auto).
  assert (IS : incl (started h) (accepted h)) by (intros x X; apply (i_from _ _ _ H); auto).
  assert (IF : incl (map fst (finished h)) (accepted h)) by (intros x X; apply (i_from _ _ _ H); auto).
  conjs.
  - rewrite (i_num _ _ _ H). f_equal. pose proof (i_num _ _ _ H) as X. apply (f_equal (@length nat)) in X.
    rewrite map_length, seq_length in X. symmetry. exact X.
  - exists (n_queue s). apply (i_queue _ _ _ H).
  - apply nodup_fst, nodup_cj. intros k. specialize (LT k). specialize (LS k). specialize (L1 k). lia.
  - eapply incl_counts; eauto.
  - apply nodup_fst, nodup_cj. intros k. specialize (LT k). specialize (LS k). specialize (L1 k). specialize (LF k). lia.
  - eapply incl_counts; eauto.
  - apply nodup_fst, nodup_cj. intros k. specialize (LT k). specialize (LS k). specialize (L1 k). specialize (LF k). specialize (LD k). lia.
  - intros [j r] X. apply (i_res _ _ _ H). auto.
Qed.
(** Everything stopped and received: what happened to the jobs. *)
Lemma settled n s h : inv n s h -> n_alive s = true -> n_out s = [] -> (forall w, In w (n_workers s) -> w = WStopped \/ w = WIdle) ->
  Permutation (delivered h) (finished h) /\ Permutation (map fst (finished h)) (started h) /\
  (n_queue s = [] -> n_done s = false -> Permutation (started h) (accepted h)).
Proof.
  intros H A O ALL. pose proof (acc_nodup _ _ _ H) as ND. destruct (i_alive _ _ _ H A) as (AB & LO).
  assert (Z : forall f : wstate J R -> nat, f WStopped = 0 -> f WIdle = 0 -> W f (n_workers s) = 0).
  { intros f F1 F2. apply W_zero. intros x X. destruct (ALL x X) as [->| ->]; assumption. }
  assert (LT : forall k, cj k (taken h) <= cj k (accepted h)) by (intros k; rewrite (i_queue _ _ _ H), cj_app; lia).
  assert (LS : forall k, cj k (started h) <= cj k (taken h)) by (intros k; pose proof (i_pre _ _ _ H k); lia).
  assert (L1 : forall k, cj k (accepted h) <= 1) by (intros k; apply cj_nodup, ND).
  assert (NS : NoDup (map fst (started h))) by (apply nodup_cj; intros k; specialize (LT k); specialize (LS k); specialize (L1 k); lia).
  assert (IS : incl (started h) (accepted h)) by (intros x X; apply (i_from _ _ _ H); auto).
  assert (IF : incl (map fst (finished h)) (accepted h)) by (intros x X; apply (i_from _ _ _ H); auto).
  assert (EF : forall k, cj k (map fst (finished h)) = cj k (started h)).
  { intros k. pose proof (i_run _ _ _ H k) as X. rewrite AB, cj_nil, (Z (f_run k)) in X by reflexivity. lia. }
  assert (ED : forall k, cj k (map fst (delivered h)) = cj k (started h)).
  { intros k. pose proof (i_send _ _ _ H k) as X. rewrite O, LO, (Z (f_send k)) in X by reflexivity. cbn [map] in X. rewrite cj_nil in X. rewrite <- EF. lia. }
  assert (NF : NoDup (map fst (finished h))) by (apply nodup_fst, nodup_cj; intros k; rewrite EF; apply cj_nodup, NS).
  assert (NDl : NoDup (map fst (delivered h))) by (apply nodup_fst, nodup_cj; intros k; rewrite ED; apply cj_nodup, NS).
  conjs.
  - apply NoDup_Permutation; [apply (NoDup_map_inv fst); exact NDl|apply (NoDup_map_inv fst); exact NF|]. intros [j r]. split; intros X.
    + apply (i_res _ _ _ H). auto.
    + destruct (i_res' _ _ _ H _ _ X) as [Y|[Y|[Y|Y]]]; auto.
      * destruct (ALL _ Y); discriminate.
      * rewrite O in Y. destruct Y.
      * rewrite LO in Y. destruct Y.
  - apply perm_counts; auto. eapply incl_counts; eauto. intros k. rewrite EF. reflexivity.
  - intros Q D. apply perm_counts; auto. intros k. rewrite (i_queue _ _ _ H), Q, app_nil_r.
    pose proof (i_pre _ _ _ H k) as X. rewrite (i_disc _ _ _ H A D), cj_nil, (Z (f_pre k)) in X by reflexivity. lia.
Qed.
Lemma completed n l s h : n <> 0 -> nrun (new n) l = Some (s, h) -> In OEnd h -> ~ In DropStream l ->
  Permutation (delivered h) (finished h) /\ Permutation (map fst (finished h)) (started h) /\
  (~ In Shutdown l -> Permutation (started h) (accepted h)).
Proof.
  intros NZ H IE ND. destruct (reach_flags _ _ _ _ H) as (FA & FD & _). pose proof (reach _ _ _ _ H) as I0.
  assert (A : n_alive s = true) by (apply FA; exact ND). destruct (i_end _ _ _ I0 IE A) as (O & ALL).
  destruct (settled n s h I0 A O) as (P1 & P2 & P3); [auto|]. conjs; auto. intros NS.
  assert (D : n_done s = false) by (destruct (n_done s); [exfalso; tauto|reflexivity]).
  apply P3; [|exact D]. pose proof (i_len _ _ _ I0) as L. destruct (n_workers s) as [|w ws] eqn:WS; [cbn in L; lia|].
  assert (w = WStopped) as -> by (apply ALL; left; reflexivity).
  apply (i_stop _ _ _ I0 WStopped); [rewrite WS; left; reflexivity|reflexivity|exact A|exact D].
Qed.
Lemma ended_closed n l s h : n <> 0 -> nrun (new n) l = Some (s, h) -> In OEnd h -> ~ In DropStream l -> n_handles s = 0 \/ In Close l.
Proof.
  intros NZ H IE ND. destruct (reach_flags _ _ _ _ H) as (FA & FD & FC & _). pose proof (reach _ _ _ _ H) as I0.
  assert (A : n_alive s = true) by (apply FA; exact ND). destruct (i_end _ _ _ I0 IE A) as (O & ALL).
  pose proof (i_len _ _ _ I0) as L. destruct (n_workers s) as [|w ws] eqn:WS; [cbn in L; lia|].
  assert (w = WStopped) as -> by (apply ALL; left; reflexivity).
  assert (C : n_closed s = true). { apply (i_closed _ _ _ I0). right. right. split; [exact A|]. rewrite WS. left. reflexivity. }
  apply FC in C. tauto.
Qed.
Lemma stuck_workers s : stuck s -> forall w, In w (n_workers s) -> w = WStopped \/ w = WIdle.
Proof.
  intros ST w IN. apply In_nth_error in IN. destruct IN as (i & E). destruct w; auto; exfalso.
  - specialize (ST (Check i) eq_refl). cbn [nstep] in ST. rewrite E in ST. destruct (n_done s); discriminate.
  - specialize (ST (Start i) eq_refl). cbn [nstep] in ST. rewrite E in ST. discriminate.
  - specialize (ST (Finish i Panic) eq_refl). cbn [nstep] in ST. rewrite E in ST. discriminate.
  - specialize (ST (Send i) eq_refl). cbn [nstep] in ST. rewrite E in ST. destruct (n_alive s); discriminate.
Qed.
Lemma stuck_idle s : stuck s -> In WIdle (n_workers s) -> n_queue s = [] /\ n_closed s = false.
Proof.
  intros ST IN. apply In_nth_error in IN. destruct IN as (i & E).
  pose proof (ST (Take i) eq_refl) as T. pose proof (ST (Quit i) eq_refl) as Q. cbn [nstep] in T, Q. rewrite E in T, Q.
  destruct (n_queue s); [|discriminate]. destruct (n_closed s); [discriminate|auto].
Qed.
Lemma stuck_out s : stuck s -> n_alive s = true -> n_out s = [].
Proof. intros ST A. specialize (ST Recv eq_refl). cbn [nstep] in ST. rewrite A in ST. destruct (n_out s) as [|[j r] o]; [reflexivity|discriminate]. Qed.
(** Nothing left to do and closed: the stream is at its end.  Nothing left to do and
    open: all results have been delivered. *)
Lemma no_deadlock n l s h : nrun (new n) l = Some (s, h) -> ~ In DropStream l -> stuck s -> n_closed s = true -> nstep s End = Some (s, [OEnd]).
Proof.
  intros H ND ST C. destruct (reach_flags _ _ _ _ H) as (FA & _). assert (A : n_alive s = true) by (apply FA; exact ND).
  cbn [nstep]. rewrite (stuck_out s ST A), A. cbn [andb].
  replace (forallb is_stopped (n_workers s)) with true; [reflexivity|]. symmetry. apply forallb_forall. intros w IN.
  destruct (stuck_workers s ST w IN) as [->| ->]; [reflexivity|]. destruct (stuck_idle s ST IN). congruence.
Qed.
Lemma all_delivered n l s h : n <> 0 -> nrun (new n) l = Some (s, h) -> ~ In DropStream l -> ~ In Shutdown l -> stuck s ->
  Permutation (map fst (delivered h)) (accepted h).
Proof.
  intros NZ H ND NS ST. destruct (reach_flags _ _ _ _ H) as (FA & FD & _). pose proof (reach _ _ _ _ H) as I0.
  assert (A : n_alive s = true) by (apply FA; exact ND).
  assert (D : n_done s = false) by (destruct (n_done s); [exfalso; tauto|reflexivity]).
  destruct (settled n s h I0 A (stuck_out s ST A) (stuck_workers s ST)) as (P1 & P2 & P3).
  rewrite (Permutation_map fst P1), P2. apply P3; [|exact D].
  pose proof (i_len _ _ _ I0) as L. destruct (n_workers s) as [|w ws] eqn:WS; [cbn in L; lia|].
  assert (IN : In w (n_workers s)) by (rewrite WS; left; reflexivity).
  destruct (stuck_workers s ST w IN) as [->| ->]; [apply (i_stop _ _ _ I0 WStopped); auto|apply stuck_idle; auto].
Qed.
(** *** Termination *)
Definition wt (w : wstate J R) : nat := match w with WStopped => 0 | WIdle => 1 | WSending _ _ => 3 | WRunning _ => 4 | WReady _ => 5 | WGot _ => 6 end.
Definition mu s : nat := 6 * length (n_queue s) + W wt (n_workers s) + length (n_out s).
Lemma mu_step s e s' o : nstep s e = Some (s', o) -> internal e = true -> mu s' < mu s.
Proof.
  intros H IN. unfold mu. destruct e; try discriminate; cbn [nstep] in H;
  repeat match type of H with
  | match ?x with _ => _ end = Some _ => destruct x eqn:?; try discriminate
  | (if ?x then _ else _) = Some _ => destruct x eqn:?; try discriminate
  end; injection H as <- <-; cbn [set_w n_queue n_closed n_done n_handles n_workers n_out n_alive n_next];
  rewrite ?app_length; cbn [length];
  try match goal with E : nth_error _ ?w = Some ?x |- context [set_nth _ ?w ?y] => pose proof (W_set wt _ _ _ y E) as X; cbn [wt] in X end; try lia. rewrite Heql. cbn [length]. lia.
Qed.
Lemma mu_run l : forall s s' h, all_internal l -> nrun s l = Some (s', h) -> length l <= mu s.
Proof.
  induction l as [|e l IH]; intros s s' h AI H; cbn [length]; [lia|]. cbn [nrun] in H.
  destruct (nstep s e) as [[s1 o1]|] eqn:E; [|discriminate]. destruct (nrun s1 l) as [[s2 h2]|] eqn:E2; [|discriminate].
  pose proof (mu_step _ _ _ _ E (AI e (or_introl eq_refl))). apply IH in E2; [lia|]. intros x X. apply AI. right. exact X.
Qed.
Lemma bounded n l s h l' s' h' : nrun (new n) l = Some (s, h) -> all_internal l' -> nrun s l' = Some (s', h') ->
  length l' <= 6 * length (n_queue s) + 6 * n + length (n_out s).
Proof.
  intros H AI H'. apply mu_run in H'; [|exact AI]. unfold mu in H'. apply reach in H. pose proof (i_len _ _ _ H).
  pose proof (W_bound wt 6 (n_workers s) ltac:(intros []; cbn; lia)). lia.
Qed.
(** *** Closing and shutting down *)
Lemma refused n l x s h : In Close l -> nrun (new n) (l ++ [Spawn x]) = Some (s, h) -> exists h0, h = h0 ++ [ORefuse x].
Proof.
  intros IN H. rewrite nrun_app in H. destruct (nrun (new n) l) as [[s1 h1]|] eqn:E; [|discriminate].
  destruct (reach_flags _ _ _ _ E) as (_ & _ & _ & FC). cbn [nrun] in H. destruct (nstep s1 (Spawn x)) as [[s2 o2]|] eqn:E2; [|discriminate].
  cbn [nstep] in E2. rewrite (FC IN) in E2. destruct (n_handles s1); [discriminate|]. injection E2 as <- <-. injection H as <- <-.
  exists h1. reflexivity.
Qed.
Lemma done_step s e s' o : n_done s = true -> nstep s e = Some (s', o) -> n_done s' = true /\
  (forall j, In (WReady j) (n_workers s') -> In (WReady j) (n_workers s)) /\ (forall j, In (OStart j) o -> In (WReady j) (n_workers s)).
Proof.
  intros D H. destruct (step_flags _ _ _ _ H) as (_ & DD & _). rewrite D in DD. split; [exact DD|]. clear DD.
  destruct e; cbn [nstep] in H;
  repeat match type of H with
  | match ?x with _ => _ end = Some _ => destruct x eqn:?; try discriminate
  | (if ?x then _ else _) = Some _ => destruct x eqn:?; try discriminate
  end; injection H as <- <-; cbn [set_w n_queue n_closed n_done n_handles n_workers n_out n_alive n_next]; try discriminate;
  (split; [intros j0 IN; try exact IN;
     try match goal with E : nth_error _ _ = Some _ |- _ => destruct (set_nth_in _ _ _ _ _ E IN); [discriminate|assumption] end
   |intros j0 IN; try (destruct IN as [IN|[]]; try discriminate IN); try (destruct IN; fail)]).
  - injection IN as <-. eapply nth_error_In; eauto.
  - apply in_map_iff in IN. destruct IN as (? & X & _). discriminate.
Qed.
Lemma done_run l : forall s s' h, n_done s = true -> nrun s l = Some (s', h) -> forall j, In j (started h) -> In (WReady j) (n_workers s).
Proof.
  induction l as [|e l IH]; intros s s' h D H j IN; cbn [nrun] in H.
  - injection H as <- <-. destruct IN.
  - destruct (nstep s e) as [[s1 o1]|] eqn:E; [|discriminate]. destruct (nrun s1 l) as [[s2 h2]|] eqn:E2; [|discriminate].
    injection H as <- <-. destruct (done_step _ _ _ _ D E) as (D1 & A & B). unfold started in IN. rewrite pick_app in IN.
    apply in_app_or in IN. destruct IN as [IN|IN].
    + apply B. unfold pick in IN. apply in_flat_map in IN. destruct IN as (x & X & Y). destruct x; try destruct Y. subst. exact X. destruct H.
    + apply A. eapply IH; eauto.
Qed.
Lemma shut_down n l1 l2 s1 h1 s h : nrun (new n) l1 = Some (s1, h1) -> nrun (new n) (l1 ++ Shutdown :: l2) = Some (s, h) ->
  forall j, In j (started h) -> In j (started h1) \/ In (WReady j) (n_workers s1).
Proof.
  intros H1 H j IN. rewrite nrun_app, H1 in H. cbn [nrun] in H. destruct (nstep s1 Shutdown) as [[s2 o2]|] eqn:E; [|discriminate].
  destruct (nrun s2 l2) as [[s3 h3]|] eqn:E2; [|discriminate]. injection H as <- <-.
  cbn [nstep] in E. destruct (n_closed s1); [|discriminate]. injection E as <- <-. cbn [app] in IN.
  unfold started in IN. rewrite pick_app in IN. apply in_app_or in IN. destruct IN as [IN|IN]; [left; exact IN|right].
  pose proof (done_run _ _ _ _ (eq_refl : n_done (mkN _ _ true _ _ _ _ _) = true) E2 j IN) as X. exact X.
Qed.
Lemma queued_never_starts n l1 l2 s1 h1 s h j : nrun (new n) l1 = Some (s1, h1) -> nrun (new n) (l1 ++ Shutdown :: l2) = Some (s, h) ->
  In j (accepted h1) -> ~ In j (taken h1) -> ~ In j (started h).
Proof.
  intros H1 H A T X. destruct (shut_down _ _ _ _ _ _ _ H1 H j X) as [Y|Y].
  - destruct (once _ _ _ _ H1) as (_ & _ & _ & IN & _). apply T, IN, Y.
  - apply reach in H1. apply T. pose proof (acc_nodup _ _ _ H1) as ND.
    pose proof (i_pre _ _ _ H1 (fst j)) as P. pose proof (W_le (f_pre (fst j)) _ _ Y) as Q. cbn [f_pre] in Q. unfold is_job in Q. rewrite Nat.eqb_refl in Q.
    destruct (cj_out (fst j) (taken h1)) as (y & Z & E); [lia|].
    rewrite <- (fst_inj _ y j ND (i_from _ _ _ H1 y (or_introl Z)) A E). exact Z.
Qed.
End P.
