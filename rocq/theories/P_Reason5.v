From Verif Require Import Base BaseFacts S_Bencode M_Utf8 M_Net M_Util M_Session M_Tracker M_Udp M_Http M_Announce S_Wire S_Udp S_UdpSession S_Http S_Announce P_Wire P_Udp P_UdpSession P_Http P_Announce S_Reason4 P_Reason4.

Lemma wait_bep k : wait_time (N.of_nat (Nat.min k 8)) = bep15_wait k.
Proof. unfold wait_time, bep15_wait, secs, second. rewrite N.shiftl_mul_pow2. reflexivity. Qed.
Lemma next_bep k : next_n (N.of_nat (Nat.min k 8)) = N.of_nat (Nat.min (S k) 8).
Proof. unfold next_n. destruct (N.ltb_spec (N.of_nat (Nat.min k 8)) 8); lia. Qed.

Ltac inv H W := inversion H; subst; try congruence;
  try (match goal with Q : forall d, ui_what _ <> InRecv d |- _ => destruct (Q _ W) end);
  repeat match goal with Q : ui_what _ = _ |- _ => tryif constr_eq Q W then fail else (rewrite W in Q; try discriminate Q; injection Q as <-) end.

Section Ends.
Context (urldata : bytes) (v6 : bool).
Notation step := (ustep urldata v6).
Notation run := (urun urldata v6).
Definition stands (st : usession) (w : awaited) (k : nat) (sent : N) : Prop :=
  match us_phase st with
  | UIdle => False
  | UConnecting txn _ n s _ => w = ToConnect txn /\ n = N.of_nat (Nat.min k 8) /\ s = sent
  | UAnnouncing cx txn _ n s _ => w = ToAnnounce txn (cx_expires cx) /\ n = N.of_nat (Nat.min k 8) /\ s = sent
  end.

Lemma ends_iff is : forall st w k sent, stands st w k sent -> forall t x, ends v6 w k sent is t x <-> first_return (snd (run st is)) = Some (t, x).
Proof.
  induction is as [|i is IH]; intros st w k sent ST t x. { split; [intros H; inversion H|discriminate]. }
  rewrite run_cons. unfold stands in ST. destruct st as [c ph]. unfold ustep. cbn [us_phase us_conn] in *.
  destruct ph as [|txn msg n s a|cx txn msg n s a]; [destruct ST| |]; destruct ST as (-> & -> & ->).
  - assert (HERE : stands (mkUS c (UConnecting txn msg (N.of_nat (Nat.min k 8)) sent a)) (ToConnect txn) k sent) by (cbn; auto).
    destruct (ui_what i) as [b|[d|]| |] eqn:W; cbn [fst snd first_return finish].
    + rewrite <- (IH _ _ _ _ HERE). split; [|apply en_idle; rewrite W; discriminate]. intros H. inversion H; subst; congruence.
    + pose proof (connect_misfit v6 txn d) as MF. pose proof (fun t0 c0 => connect_success d t0 c0) as CS.
      destruct (response_from_bytes connection_response d) as [[[got cid]|m]|e] eqn:R; cbn [res_bind response_ok] in *.
      * destruct (N.eqb_spec got txn) as [->|NE]; cbn [negb].
        -- assert (CR : connect_reply d txn cid) by (apply CS; reflexivity).
           assert (FN : forall cid', connect_reply d txn cid' -> cid' = cid) by (intros cid' Q; apply CS in Q; congruence).
           assert (NM : forall y, ~ misfit v6 d (ToConnect txn) y) by (intros y Q; apply MF in Q; destruct Q as (Q & _); auto).
           unfold begin_announce, send_or_fail, finish. destruct (ui_send i) eqn:SE; cbn [fst snd first_return].
           ++ rewrite <- (IH _ (ToAnnounce (ui_txn i) (ui_at i + 60 * second)) 0%nat (ui_at i)) by (cbn; auto). split.
              ** intros H. inv H W; exfalso; eapply NM; eassumption.
              ** intros H. eapply en_connected; eauto.
           ++ split.
              ** intros H. inv H W; try reflexivity; exfalso; eapply NM; eassumption.
              ** intros [= <- <-]. eapply en_connected_fails; eauto.
        -- assert (NC : forall cid', ~ connect_reply d txn cid') by (intros cid' Q; apply CS in Q; congruence).
           cbn [finish fst snd first_return]. split.
           ++ intros H. inv H W;
                try (exfalso; eapply NC; eassumption). match goal with Q : misfit _ _ _ _ |- _ => apply MF in Q; destruct Q as (_ & ->) end. reflexivity.
           ++ intros [= <- <-]. apply (en_misfit _ _ d); [exact W|]. apply MF. auto.
      * assert (NC : forall cid', ~ connect_reply d txn cid') by (intros cid' Q; apply CS in Q; congruence).
        cbn [finish fst snd first_return]. split.
        -- intros H. inv H W;
             try (exfalso; eapply NC; eassumption). match goal with Q : misfit _ _ _ _ |- _ => apply MF in Q; subst end. reflexivity.
        -- intros [= <- <-]. apply (en_misfit _ _ d); [exact W|]. apply MF. auto.
      * assert (NC : forall cid', ~ connect_reply d txn cid') by (intros cid' Q; apply CS in Q; congruence).
        cbn [finish fst snd first_return]. split.
        -- intros H. inv H W;
             try (exfalso; eapply NC; eassumption). match goal with Q : misfit _ _ _ _ |- _ => apply MF in Q; subst end. reflexivity.
        -- intros [= <- <-]. apply (en_misfit _ _ d); [exact W|]. apply MF. auto.
    + split; [intros H; inversion H; subst; try congruence|intros [= <- <-]; now apply en_receive].
    + rewrite wait_bep. destruct (N.leb_spec (sent + bep15_wait k) (ui_at i)) as [LE|LT]; cbn [fst snd].
      * unfold send_or_fail, finish. destruct (ui_send i) eqn:SE; cbn [fst snd first_return].
        -- rewrite next_bep, <- (IH _ (ToConnect txn) (S k) (ui_at i)) by (cbn; auto). split; [|apply en_again; auto]. intros H. inversion H; subst; try congruence. exfalso. match goal with Q : ui_what i = InTimer -> _ |- _ => specialize (Q W) end. lia.
        -- split; [|intros [= <- <-]; apply en_again_fails; auto]. intros H. inversion H; subst; try congruence. exfalso. match goal with Q : ui_what i = InTimer -> _ |- _ => specialize (Q W) end. lia.
      * cbn [first_return]. rewrite <- (IH _ _ _ _ HERE). split; [|apply en_idle; rewrite W; auto; discriminate]. intros H. inversion H; subst; try congruence; lia.
    + rewrite <- (IH _ _ _ _ HERE). split; [|apply en_idle; rewrite W; discriminate]. intros H. inversion H; subst; congruence.
  - assert (HERE : stands (mkUS c (UAnnouncing cx txn msg (N.of_nat (Nat.min k 8)) sent a)) (ToAnnounce txn (cx_expires cx)) k sent) by (cbn; auto).
    destruct (ui_what i) as [b|[d|]| |] eqn:W; cbn [fst snd first_return finish].
    + rewrite <- (IH _ _ _ _ HERE). split; [|apply en_idle; rewrite W; discriminate]. intros H. inversion H; subst; congruence.
    + pose proof (announce_misfit v6 txn (cx_expires cx) d) as MF. pose proof (fun t0 c0 => announce_success v6 d t0 c0) as CS.
      destruct (response_from_bytes (udp_announce_response v6) d) as [[[got resp]|m]|e] eqn:R; cbn [res_bind response_ok] in *.
      * destruct (N.eqb_spec got txn) as [->|NE]; cbn [negb].
        -- assert (CR : announce_reply v6 d txn resp) by (apply CS; reflexivity).
           assert (FN : forall r', announce_reply v6 d txn r' -> r' = resp) by (intros cid' Q; apply CS in Q; congruence).
           assert (NM : forall y, ~ misfit v6 d (ToAnnounce txn (cx_expires cx)) y) by (intros y Q; apply MF in Q; destruct Q as (Q & _); auto).
           cbn [finish fst snd first_return]. split.
           ++ intros H. inv H W; try (exfalso; eapply NM; eassumption).
              match goal with Q : announce_reply _ _ _ _ |- _ => apply FN in Q; subst end. reflexivity.
           ++ intros [= <- <-]. eapply en_announced; eauto.
        -- assert (NC : forall r', ~ announce_reply v6 d txn r') by (intros cid' Q; apply CS in Q; congruence).
           cbn [finish fst snd first_return]. split.
           ++ intros H. inv H W;
                try (exfalso; eapply NC; eassumption). match goal with Q : misfit _ _ _ _ |- _ => apply MF in Q; destruct Q as (_ & ->) end. reflexivity.
           ++ intros [= <- <-]. apply (en_misfit _ _ d); [exact W|]. apply MF. auto.
      * assert (NC : forall r', ~ announce_reply v6 d txn r') by (intros cid' Q; apply CS in Q; congruence).
        cbn [finish fst snd first_return]. split.
        -- intros H. inv H W;
             try (exfalso; eapply NC; eassumption). match goal with Q : misfit _ _ _ _ |- _ => apply MF in Q; subst end. reflexivity.
        -- intros [= <- <-]. apply (en_misfit _ _ d); [exact W|]. apply MF. auto.
      * assert (NC : forall r', ~ announce_reply v6 d txn r') by (intros cid' Q; apply CS in Q; congruence).
        cbn [finish fst snd first_return]. split.
        -- intros H. inv H W;
             try (exfalso; eapply NC; eassumption). match goal with Q : misfit _ _ _ _ |- _ => apply MF in Q; subst end. reflexivity.
        -- intros [= <- <-]. apply (en_misfit _ _ d); [exact W|]. apply MF. auto.
    + split; [intros H; inversion H; subst; try congruence|intros [= <- <-]; now apply en_receive].
    + rewrite wait_bep. destruct (N.leb_spec (sent + bep15_wait k) (ui_at i)) as [LE|LT]; cbn [fst snd].
      * unfold send_or_fail, finish. destruct (ui_send i) eqn:SE; cbn [fst snd first_return].
        -- rewrite next_bep, <- (IH _ (ToAnnounce txn (cx_expires cx)) (S k) (ui_at i)) by (cbn; auto). split; [|apply en_again; auto]. intros H. inversion H; subst; try congruence. exfalso. match goal with Q : ui_what i = InTimer -> _ |- _ => specialize (Q W) end. lia.
        -- split; [|intros [= <- <-]; apply en_again_fails; auto]. intros H. inversion H; subst; try congruence. exfalso. match goal with Q : ui_what i = InTimer -> _ |- _ => specialize (Q W) end. lia.
      * cbn [first_return]. rewrite <- (IH _ _ _ _ HERE). split; [|apply en_idle; rewrite W; auto; discriminate]. intros H. inversion H; subst; try congruence; lia.
    + destruct (N.leb_spec (cx_expires cx) (ui_at i)) as [LE|LT]; cbn [fst snd].
      * unfold begin_round, begin_connect, send_or_fail, finish. destruct (ui_send i) eqn:SE; cbn [fst snd first_return].
        -- rewrite <- (IH _ (ToConnect (ui_txn i)) 0%nat (ui_at i)) by (cbn; auto). split; [|apply en_expired; auto]. intros H. inversion H; subst; try congruence. exfalso. match goal with Q : ui_what i = InExpiry -> _ |- _ => specialize (Q W _ _ eq_refl) end. lia.
        -- split; [|intros [= <- <-]; apply en_expired_fails; auto]. intros H. inversion H; subst; try congruence. exfalso. match goal with Q : ui_what i = InExpiry -> _ |- _ => specialize (Q W _ _ eq_refl) end. lia.
      * cbn [first_return]. rewrite <- (IH _ _ _ _ HERE). split.
        -- intros H. inversion H; subst; try congruence; lia.
        -- apply en_idle; rewrite W; try discriminate. intros _ txn' e [= <- <-]. exact LT.
Qed.
End Ends.
