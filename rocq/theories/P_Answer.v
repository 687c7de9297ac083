(** Peers that answer requests (C03) *)
From Verif Require Import Base BaseFacts S_Bencode S_Download S_Answer M_Bencode M_Sha1 M_Torrent M_Messages M_Peer P_Bencode P_Torrent P_Peer P_Download.

Lemma fetch_run_app evs : forall st e,
  fetch_run st (evs ++ [e]) =
  let (st1, tr1) := fetch_run st evs in
  match st1 with Waiting _ _ _ => let (st2, out) := fetch_step st1 e in (st2, tr1 ++ Recv e :: map Sent out) | _ => (st1, tr1) end.
Proof.
  induction evs as [|x evs IH]; intros st e.
  - cbn [app fetch_run]. destruct st; try reflexivity. destruct (fetch_step _ _) as [st2 out]. destruct st2; cbn [app]; now rewrite ?app_nil_r.
  - destruct st; try reflexivity. cbn [app fetch_run]. destruct (fetch_step _ x) as [st1 out]. rewrite IH. destruct (fetch_run st1 evs) as [st2 tr]. destruct st2; try reflexivity.
    destruct (fetch_step _ e) as [st3 out3]. cbn [app]. now rewrite <- app_assoc.
Qed.
Lemma gmi_snoc ih sz evs size b i tr e st out : get_metadata_info ih sz evs = (Waiting size b i, tr) -> fetch_step (Waiting size b i) e = (st, out) ->
  get_metadata_info ih sz (evs ++ [e]) = (st, tr ++ Recv e :: map Sent out).
Proof.
  unfold get_metadata_info. destruct (fetch_start ih sz) as [st0 out0]. rewrite fetch_run_app. destruct (fetch_run st0 evs) as [st1 tr1]. intros H S. injection H as -> <-. rewrite S.
  now rewrite <- app_assoc.
Qed.
Lemma awaiting_app a b : awaiting (a ++ b) = fold_left (fun a x => match x with
                        | Sent (Meta (MRequest i)) => Some (i, 0%nat)
                        | Sent _ => a
                        | Recv (Ok (Meta (MData _ _ _))) => None
                        | Recv _ => option_map (fun q => (fst q, S (snd q))) a
                        end) b (awaiting a).
Proof. unfold awaiting. apply fold_left_app. Qed.

Section A.
Context (ih data : bytes) (k : nat) (peer : list wire -> message).
Hypothesis BD : bencoded_dict data.
Hypothesis SH : sha1 data = ih.
Hypothesis LB : blen data <= 20971520.
Hypothesis AN : answers data k peer.
Notation F evs := (get_metadata_info ih (Some (blen data)) evs).
Notation conv n := (conversation ih (blen data) peer n).

Lemma conv_go : forall d n b i tr m, F (conv n) = (Waiting (blen data) b i, tr) -> shape ih (blen data) b -> b_next b = i -> i < pieces (blen data) ->
  b_data b = takeN (16384 * i) data -> awaiting tr = Some (i, m) -> (m <= k)%nat ->
  ((N.to_nat (pieces (blen data)) - N.to_nat i) * S k <= d + m)%nat ->
  exists n' tr', F (conv n') = (Finished (Ok (mkTI ih data)), tr').
Proof.
  induction d as [|d IH]; intros n b i tr m HF Sb Hn Hi Hd AW MK D.
  { exfalso. assert (1 <= N.to_nat (pieces (blen data)) - N.to_nat i)%nat by lia. nia. }
  assert (CS : conv (S n) = conv n ++ [Ok (peer tr)]) by (cbn [conversation]; now rewrite HF).
  destruct (AN tr i m AW (proj1 (pieces_lt _ _) Hi)) as [E|(LM & HM)].
  - assert (exists b', builder_push b (slice data i) = Ret (Ok tt, b') /\ shape ih (blen data) b' /\ b_next b' = i + 1 /\ b_data b' = b_data b ++ slice data i) as (b' & P & S' & Hn' & Hd').
    { destruct (push_ok ih (blen data) b (slice data i)) as (b' & P & S' & Hn' & Hd'); [auto|now rewrite Hn| |].
      - rewrite Hn. apply pieces_lt in Hi. unfold slice, takeN, dropN, blen in *. rewrite firstn_length, skipn_length. lia.
      - exists b'. rewrite Hn' , Hn. auto. }
    assert (Hdata : b_data b' = takeN (16384 * b_next b') data).
    { rewrite Hd', Hn', Hd. unfold slice. rewrite <- takeN_add. f_equal. lia. }
    destruct (fetch_next (blen data) b') as [st1 out] eqn:E1.
    assert (ST : fetch_step (Waiting (blen data) b i) (Ok (peer tr)) = (st1, out)).
    { rewrite E. cbn [fetch_step]. rewrite !N.eqb_refl. cbn [negb]. rewrite P. exact E1. }
    assert (G : F (conv (S n)) = (st1, tr ++ Recv (Ok (peer tr)) :: map Sent out)) by (rewrite CS; exact (gmi_snoc _ _ _ _ _ _ _ _ _ _ HF ST)).
    destruct (next_honest ih data BD SH LB b' st1 out S' Hdata E1) as [(-> & Hlt')| ->]; [|eauto].
    assert (OUT : out = [Meta (MRequest (i + 1))]).
    { unfold fetch_next, builder_next in E1. rewrite Hn' in E1. destruct (i + 1 <? b_qty b'); [injection E1 as <-; reflexivity|]. destruct (builder_build b'); discriminate. }
    rewrite Hn' in *. rewrite OUT in G. eapply (IH (S n) b' (i + 1) _ 0%nat G); eauto; [|lia|nia].
    rewrite E, awaiting_app, AW. reflexivity.
  - destruct (harmless_step (peer tr) (blen data) b i HM) as (out & ST).
    assert (G : F (conv (S n)) = (Waiting (blen data) b i, tr ++ Recv (Ok (peer tr)) :: map Sent out)) by (rewrite CS; exact (gmi_snoc _ _ _ _ _ _ _ _ _ _ HF ST)).
    eapply (IH (S n) b i _ (S m) G); eauto; [|lia].
    rewrite awaiting_app, AW. cbn [fold_left]. 
    revert ST HM. generalize (peer tr). intros x ST HM. inversion HM; subst x; cbn in ST; injection ST as <-; reflexivity.
Qed.
Lemma answering_suffices : exists n tr, F (conv n) = (Finished (Ok (mkTI ih data)), tr).
Proof.
  assert (E0 : exists st out, F (conv 0) = (st, map Sent out) /\ fetch_next (blen data) (mkB ih [] [] (sizes_of (blen data)) 0 (pieces (blen data))) = (st, out)).
  { unfold get_metadata_info, fetch_start. rewrite builder_new_eq by exact LB. destruct (fetch_next _ _) as [st out]. exists st, out. split; [|reflexivity].
    destruct st; cbn [conversation fetch_run]; now rewrite app_nil_r. }
  destruct E0 as (st & out & E & EN).
  destruct (next_honest ih data BD SH LB _ st out (shape_new ih (blen data)) eq_refl EN) as [(-> & Hlt)| ->]; [|eauto]. cbn [b_next] in *.
  assert (OUT : out = [Meta (MRequest 0)]).
  { unfold fetch_next, builder_next in EN. cbn [b_next b_qty] in EN. destruct (0 <? pieces (blen data)); [injection EN as <-; reflexivity|]. destruct (builder_build _); discriminate. }
  subst out. eapply (conv_go (N.to_nat (pieces (blen data)) * S k) 0 _ 0 _ 0 E); [exact (shape_new ih (blen data))|reflexivity|exact Hlt|reflexivity|reflexivity|lia|lia].
Qed.
End A.
(** A peer that sends one other message before each piece *)
Definition ex_peer (h : list wire) : message :=
  match awaiting h with Some (i, S _) => Meta (MData i (blen ex_data) (slice ex_data i)) | Some (_, O) => Core HaveNone | None => Core Keepalive end.
Lemma ex_peer_answers : answers ex_data 1 ex_peer.
Proof. intros h i [|n] H _; unfold ex_peer; rewrite H; [right; split; [lia|constructor]|left; reflexivity]. Qed.
