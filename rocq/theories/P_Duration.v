From Verif Require Import Base BaseFacts M_Nursery S_Nursery P_Nursery M_Async S_Async M_Resolve S_Resolve P_Resolve P_Resolve2 M_Duration S_Duration.
Local Open Scope nat_scope.

Lemma started_app {J R} (a b : list (obs J R)) : started (a ++ b) = started a ++ started b.
Proof. apply pick_app. Qed.
Lemma total_app {J} (d : J -> nat) a b : total d (a ++ b) = total d a + total d b.
Proof. unfold total. rewrite map_app, list_sum_app. reflexivity. Qed.

(** Sums over the workers, by number. *)
Lemma W_ext {X} (f g : X -> nat) l : (forall i, In i l -> f i = g i) -> W f l = W g l.
Proof. induction l as [|a l IH]; intros H; [reflexivity|]. rewrite !W_cons, (H a), IH; [reflexivity| |left; reflexivity]. intros i I. apply H. right. exact I. Qed.
Lemma W_upd (f g : nat -> nat) n w : w < n -> (forall i, i <> w -> f i = g i) -> W f (seq 0 n) + g w = W g (seq 0 n) + f w.
Proof.
  intros L H. replace n with (w + (1 + (n - S w))) by lia. rewrite !seq_app. cbn [seq Nat.add]. rewrite !W_app.
  rewrite (W_ext f g (seq 0 w)); [|intros i I; apply in_seq in I; apply H; lia].
  rewrite !W_cons, !W_nil.
  rewrite (W_ext f g (seq (w + 1) _)); [|intros i I; apply in_seq in I; apply H; lia]. lia.
Qed.
Lemma W_const_le (f g : nat -> nat) l : (forall i, In i l -> f i <= g i) -> W f l <= W g l.
Proof. induction l as [|a l IH]; intros H; [reflexivity|]. rewrite !W_cons. pose proof (H a (or_introl eq_refl)). assert (W f l <= W g l); [apply IH; intros i I; apply H; right; exact I|lia]. Qed.
Lemma W_plus (f g : nat -> nat) l : W (fun i => f i + g i) l = W f l + W g l.
Proof. induction l as [|a l IH]; [reflexivity|]. rewrite !W_cons, IH. lia. Qed.
Lemma W_konst (c : nat) l : W (fun _ : nat => c) l = length l * c.
Proof. induction l as [|a l IH]; [reflexivity|]. rewrite W_cons, IH. cbn [length]. lia. Qed.

Lemma set_nth_at {X} (l : list X) i x y : nth_error l i = Some x -> nth_error (set_nth l i y) i = Some y.
Proof.
  intros E. unfold set_nth. assert (L : i < length l) by (apply nth_error_Some; congruence).
  rewrite nth_error_app2; rewrite firstn_length_le by lia; [|lia]. rewrite Nat.sub_diag.
  destruct (skipn i l) as [|a r] eqn:S; [|reflexivity]. pose proof (skipn_length i l) as X0. rewrite S in X0. cbn in X0. lia.
Qed.
Lemma set_nth_other {X} (l : list X) i k x y : nth_error l i = Some x -> k <> i -> nth_error (set_nth l i y) k = nth_error l k.
Proof.
  revert i k. induction l as [|a l IH]; intros [|i] [|k] E N; try discriminate; try congruence; try reflexivity.
  cbn [nth_error] in *. unfold set_nth. cbn [firstn skipn app nth_error]. change (nth_error (set_nth l i y) k = nth_error l k). apply IH; [exact E|congruence].
Qed.
Lemma set_nth_len {X} (l : list X) i x y : nth_error l i = Some x -> length (set_nth l i y) = length l.
Proof. intros E. destruct (set_nth_split l i x y E) as (a & b & -> & ->). rewrite !app_length. reflexivity. Qed.

(** One pool. *)
Section Pool.
Context {J R : Type} (d : job J -> nat) (tau : nat).
Definition rem1 (b : nat -> nat) (now : nat) (ws : list (wstate J R)) (i : nat) : nat :=
  match nth_error ws i with Some (WRunning j) => b i + d j - now | _ => 0 end.
Definition rem (b : nat -> nat) (now : nat) (ws : list (wstate J R)) : nat := W (rem1 b now ws) (seq 0 (length ws)).
Definition fresh (w : wstate J R) : bool := match w with WGot _ | WReady _ => true | _ => false end.
(** No job of the pool is yet to begin. *)
Definition drained (s : nst J R) : Prop := n_queue s = [] /\ forall w, In w (n_workers s) -> fresh w = false.
(** [c]: the time during which all workers were busy; [K]: that spent on the last jobs. *)
Record pinv (s : nst J R) (b : nat -> nat) (now : nat) (h : list (obs J R)) (c K : nat) : Prop := {
  p_run : forall i j, nth_error (n_workers s) i = Some (WRunning j) -> b i <= now <= b i + d j;
  p_sum : length (n_workers s) * c + rem b now (n_workers s) <= total d (started h);
  p_last : K <= tau;
  p_drain : K <> 0 -> drained s /\ forall i j, nth_error (n_workers s) i = Some (WRunning j) -> K + b i <= now
}.
Lemma pinv_new n b : pinv (new n) b 0 [] 0 0.
Proof.
  assert (X : forall i x, nth_error (repeat (@WIdle J R) n) i = Some x -> x = WIdle) by (intros i x E; apply nth_error_In in E; apply repeat_spec in E; exact E).
  split; cbn [new n_workers].
  - intros i j E. apply X in E. discriminate.
  - unfold rem. rewrite (W_ext _ (fun _ => 0)), W_konst; [cbn; lia|]. intros i _. unfold rem1. destruct (nth_error _ i) eqn:E; [|reflexivity]. rewrite (X _ _ E). reflexivity.
  - lia.
  - congruence.
Qed.
Lemma pinv_same s b now h c K s' o : pinv s b now h c K -> n_workers s' = n_workers s -> (K = 0 \/ n_queue s' = n_queue s) -> started o = [] ->
  pinv s' b now (h ++ o) c K.
Proof.
  intros [R1 S L D] EW EQ EO. split; rewrite ?EW; auto.
  - rewrite started_app, EO, app_nil_r. exact S.
  - intros N. destruct EQ as [EQ|EQ]; [congruence|]. destruct (D N) as ((Q & F) & B). split; [|exact B]. split; rewrite ?EQ, ?EW; assumption.
Qed.
Lemma wstep_shape (f : job J -> outcome R) s e s' o : wstep f s e = Some (s', o) ->
  exists w x y, nth_error (n_workers s) w = Some x /\ n_workers s' = set_nth (n_workers s) w y /\
    (n_queue s' = n_queue s \/ n_queue s <> []) /\
    ((exists j, e = KStart w /\ x = WReady j /\ y = WRunning j /\ started o = [j] /\ n_queue s' = n_queue s) \/
     ((forall k, e <> KStart k) /\ (forall j, y <> WRunning j) /\ started o = [] /\ (fresh y = true -> fresh x = true \/ n_queue s <> []))).
Proof.
  intros H. destruct e; cbn [wstep] in H;
  (destruct (nth_error (n_workers s) w) as [x|] eqn:EW; [|cbn [nstep] in H; rewrite ?EW in H; try discriminate; destruct (n_alive s); discriminate]).
  all: cbn [nstep] in H; rewrite ?EW in H; destruct x; try discriminate.
  all: repeat match type of H with
  | match ?x with _ => _ end = Some _ => destruct x eqn:?; try discriminate
  | (if ?x then _ else _) = Some _ => destruct x eqn:?; try discriminate
  end; injection H as <- <-; cbn [set_w n_queue n_workers];
  eexists w, _, _; (split; [exact EW|]); (split; [reflexivity|]); (split; [first [left; congruence | right; congruence]|]).
  all: try (right; split; [discriminate|]; split; [discriminate|]; split; [reflexivity|]; cbn [fresh]; intros; try discriminate; auto; right; congruence).
  left. eexists. repeat split.
Qed.
Lemma pinv_w (f : job J -> outcome R) s b now h c K e s' o : pinv s b now h c K -> wstep f s e = Some (s', o) ->
  pinv s' (begin b now e) now (h ++ o) c K.
Proof.
  intros [R1 S L D] H. destruct (wstep_shape _ _ _ _ _ H) as (w & x & y & EX & EW & EQ & C).
  assert (LT : w < length (n_workers s)) by (apply nth_error_Some; congruence).
  pose proof (set_nth_at _ _ _ y EX) as AT. pose proof (set_nth_len _ _ _ y EX) as LEN.
  destruct C as [(j & -> & -> & -> & EO & QS)|(NS & NR & EO & FR)].
  - assert (BW : begin b now (KStart w) w = now) by (cbn [begin]; rewrite Nat.eqb_refl; reflexivity).
    assert (BO : forall i, i <> w -> begin b now (KStart w) i = b i) by (intros i N; cbn [begin]; apply Nat.eqb_neq in N; rewrite N; reflexivity).
    split; rewrite ?EW.
    + intros i j0 E. destruct (Nat.eq_dec i w) as [->|N].
      * rewrite AT in E. injection E as <-. rewrite BW. lia.
      * rewrite (set_nth_other _ _ _ _ _ EX N) in E. rewrite (BO _ N). exact (R1 _ _ E).
    + rewrite LEN, started_app, EO, total_app. unfold rem. rewrite LEN.
      assert (U := W_upd (rem1 (begin b now (KStart w)) now (set_nth (n_workers s) w (WRunning j))) (rem1 b now (n_workers s)) (length (n_workers s)) w LT).
      assert (X1 : rem1 b now (n_workers s) w = 0) by (unfold rem1; rewrite EX; reflexivity).
      assert (X2 : rem1 (begin b now (KStart w)) now (set_nth (n_workers s) w (WRunning j)) w = d j) by (unfold rem1; rewrite AT, BW; lia).
      rewrite X1, X2 in U. unfold total at 2. cbn [map list_sum fold_right]. unfold rem in S.
      assert (OT : forall i, i <> w -> rem1 (begin b now (KStart w)) now (set_nth (n_workers s) w (WRunning j)) i = rem1 b now (n_workers s) i).
      { intros i N. unfold rem1. rewrite (set_nth_other _ _ _ _ _ EX N), (BO _ N). reflexivity. }
      specialize (U OT). lia.
    + exact L.
    + intros N. destruct (D N) as ((Q & F) & B). exfalso. apply nth_error_In in EX. specialize (F _ EX). discriminate.
  - assert (BB : begin b now e = b) by (destruct e; try reflexivity; destruct (NS w0 eq_refl)). rewrite BB. split; rewrite ?EW.
    + intros i j E. destruct (Nat.eq_dec i w) as [->|N]; [rewrite AT in E; injection E as ->; destruct (NR j eq_refl)|].
      rewrite (set_nth_other _ _ _ _ _ EX N) in E. exact (R1 _ _ E).
    + rewrite LEN, started_app, EO, app_nil_r. eapply Nat.le_trans; [|exact S]. apply Nat.add_le_mono_l. unfold rem. rewrite LEN.
      apply W_const_le. intros i _. unfold rem1. destruct (Nat.eq_dec i w) as [->|N]; [|rewrite (set_nth_other _ _ _ _ _ EX N); lia].
      rewrite AT. destruct y; try lia. destruct (NR j eq_refl).
    + exact L.
    + intros N. destruct (D N) as ((Q & F) & B). split.
      * split; [destruct EQ as [EQ|EQ]; congruence|]. rewrite EW. intros z IN. destruct (set_nth_in _ _ _ _ _ EX IN) as [->|IN']; [|exact (F _ IN')].
        destruct (fresh y) eqn:EF; [|reflexivity]. destruct (FR eq_refl) as [X|X]; [|congruence]. rewrite (F x) in X; [discriminate|]. apply nth_error_In in EX. exact EX.
      * intros i j E. destruct (Nat.eq_dec i w) as [->|N']; [rewrite AT in E; injection E as ->; destruct (NR j eq_refl)|].
        rewrite (set_nth_other _ _ _ _ _ EX N') in E. exact (B _ _ E).
Qed.
Definition timely (s : nst J R) (b : nat -> nat) (t : nat) : Prop := forall w j, nth_error (n_workers s) w = Some (WRunning j) -> t <= b w + d j.
Lemma rem_mono b now t (ws : list (wstate J R)) : rem b (now + t) ws <= rem b now ws.
Proof. apply W_const_le. intros i _. unfold rem1. destruct (nth_error ws i) as [[]|]; lia. Qed.
Lemma pinv_wait s b now h c K t : pinv s b now h c K -> timely s b (now + t) -> pinv s b (now + t) h c K.
Proof.
  intros [R1 S L D] TM. split; auto.
  - intros i j E. specialize (R1 _ _ E). specialize (TM _ _ E). lia.
  - pose proof (rem_mono b now t (n_workers s)). lia.
  - intros N. destruct (D N) as (F & B). split; [exact F|]. intros i j E. specialize (B _ _ E). lia.
Qed.
Lemma pinv_busy s b now h c K t : pinv s b now h c K -> timely s b (now + t) -> (forall w, In w (n_workers s) -> exists j, w = WRunning j) ->
  pinv s b (now + t) h (c + t) K.
Proof.
  intros PI TM ALL. pose proof (pinv_wait _ _ _ _ _ _ _ PI TM) as [R1 _ L D]. destruct PI as [R0 S _ _]. split; auto.
  assert (X : rem b now (n_workers s) = rem b (now + t) (n_workers s) + length (n_workers s) * t).
  { unfold rem. rewrite <- (seq_length (length (n_workers s)) 0) at 3. rewrite <- W_konst, <- W_plus. apply W_ext. intros i I. apply in_seq in I. unfold rem1.
    destruct (nth_error (n_workers s) i) as [x|] eqn:E; [|apply nth_error_None in E; lia]. destruct (ALL x) as (j & ->); [eapply nth_error_In; exact E|].
    specialize (TM _ _ E). lia. }
  rewrite Nat.mul_add_distr_l. lia.
Qed.
Lemma pinv_last s b now h c K t i j : (forall j, d j <= tau) -> pinv s b now h c K -> timely s b (now + t) -> drained s -> nth_error (n_workers s) i = Some (WRunning j) ->
  pinv s b (now + t) h c (K + t).
Proof.
  intros BD PI TM DR E. pose proof (pinv_wait _ _ _ _ _ _ _ PI TM) as [R1 S L D]. destruct PI as [R0 _ _ D0].
  assert (KB : forall i j, nth_error (n_workers s) i = Some (WRunning j) -> K + b i <= now).
  { intros i' j' E'. destruct K as [|K]; [exact (proj1 (R0 _ _ E'))|]. apply (proj2 (D0 (Nat.neq_succ_0 K)) _ _ E'). }
  split; auto.
  - specialize (KB _ _ E). specialize (TM _ _ E). specialize (BD j). lia.
  - intros _. split; [exact DR|]. intros i' j' E'. specialize (KB _ _ E'). lia.
Qed.
End Pool.
