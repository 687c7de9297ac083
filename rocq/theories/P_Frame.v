From Verif Require Import Base BaseFacts S_Wire P_Wire M_Frame S_Frame.

(** The bytes still to be consumed, seen from the decoder's state. *)
Definition pending (st : dec_state) (buf : bytes) : bytes :=
  match st with Head => buf | Data n => be_bytes 4 n ++ buf end.
Definition st_ok (st : dec_state) : Prop := match st with Head => True | Data n => n <= 65535 end.

Lemma firstn4 (buf : bytes) : (4 <= length buf)%nat -> exists h t, buf = h ++ t /\ length h = 4%nat /\ firstn 4 buf = h /\ skipn 4 buf = t.
Proof.
  intros. exists (firstn 4 buf), (skipn 4 buf). rewrite firstn_skipn, firstn_length. repeat split; lia.
Qed.

Lemma frame_decode_spec st buf : st_ok st ->
  match frame_decode st buf with
  | DTooBig => exists h t, pending st buf = h ++ t /\ length h = 4%nat /\ 65535 < be h
  | DFrame f rest => exists h, pending st buf = h ++ f ++ rest /\ length h = 4%nat /\ be h = blen f /\ blen f <= 65535
  | DMore st' rest => pending st' rest = pending st buf /\ unfinished (pending st buf) /\ st_ok st' /\
      match st' with Head => (length rest < 4)%nat | Data n => blen rest < n end
  end.
Proof.
  assert (D : forall n b, n <= 65535 -> match decode_data n b with
    | DFrame f rest => b = f ++ rest /\ blen f = n
    | DMore st' rest => st' = Data n /\ rest = b /\ blen b < n
    | DTooBig => False end).
  { intros n b Hn. unfold decode_data. destruct (N.ltb_spec (blen b) n); auto. rewrite takeN_dropN. split; auto.
    unfold blen, takeN in *. rewrite firstn_length. lia. }
  assert (B4 : forall n, n <= 65535 -> length (be_bytes 4 n) = 4%nat /\ be (be_bytes 4 n) = n).
  { intros n Hn. split; [apply be_bytes_length|]. apply be_be_bytes. change (256 ^ N.of_nat 4) with 4294967296. lia. }
  intros W. unfold frame_decode. destruct st as [|n].
  - destruct (N.ltb_spec (blen buf) 4) as [L|L].
    + unfold blen in L. cbn [pending]. repeat split; auto; [left; lia|lia].
    + destruct (firstn4 buf) as (h & t & -> & L4 & E1 & E2); [unfold blen in L; lia|]. rewrite E1, E2, <- be_be_val.
      unfold MAX_PEER_MSG_LEN. destruct (N.ltb_spec 65535 (be h)) as [B|B].
      * exists h, t. auto.
      * specialize (D (be h) t B). destruct (decode_data (be h) t).
        -- destruct D as [-> E]. exists h. cbn [pending]. repeat split; auto; lia.
        -- destruct D as (-> & -> & Lt). cbn [pending].
           split; [now rewrite be_bytes_be|]. split; [right; eauto 10|]. split; [exact B|exact Lt].
        -- destruct D.
  - cbn [st_ok] in W. specialize (D n buf W). destruct (B4 n W) as [L4 EB]. destruct (decode_data n buf).
    + destruct D as [-> E]. exists (be_bytes 4 n). cbn [pending]. repeat split; auto; lia.
    + destruct D as (-> & -> & Lt). cbn [pending]. repeat split; auto. right. exists (be_bytes 4 n), buf.
      repeat split; auto; lia.
    + destruct D.
Qed.

Lemma unfinished_not_frame h b s : length h = 4%nat -> be h = blen b -> unfinished (h ++ b ++ s) -> False.
Proof.
  intros L E [U|(h' & t & EQ & L' & B & U)].
  - rewrite app_length in U. lia.
  - apply app_len_inj in EQ as [<- EQ]; [|congruence]. subst t. unfold blen in *. rewrite app_length in U. lia.
Qed.
Lemma unfinished_not_long h s : length h = 4%nat -> 65535 < be h -> unfinished (h ++ s) -> False.
Proof.
  intros L E [U|(h' & t & EQ & L' & B & U)].
  - rewrite app_length in U. lia.
  - apply app_len_inj in EQ as [<- EQ]; [|congruence]. lia.
Qed.

Lemma frames_fun s fs r : frames s fs r -> forall fs' r', frames s fs' r' -> fs = fs' /\ r = r'.
Proof.
  induction 1 as [s U|h s L B|h b s fs r L E B _ IH]; intros fs' r' H.
  - inversion H; subst; auto; exfalso; eauto using unfinished_not_frame, unfinished_not_long.
  - inversion H as [? U|h' s' L' B' EQ|h' b' s' fs0 r0 L' E' B' _ EQ]; subst; auto.
    + exfalso. eauto using unfinished_not_long.
    + apply app_len_inj in EQ as [-> _]; [|congruence]. lia.
  - inversion H as [? U|h' s' L' B' EQ|h' b' s' fs0 r0 L' E' B' HF EQ]; subst.
    + exfalso. eauto using unfinished_not_frame.
    + apply app_len_inj in EQ as [-> _]; [|congruence]. lia.
    + apply app_len_inj in EQ as [-> EQ]; [|congruence]. apply app_len_inj in EQ as [-> ->]; [|unfold blen in *; lia].
      destruct (IH _ _ HF) as [-> ->]. auto.
Qed.

Definition total (st : dec_state) (buf : bytes) (reads : list bytes) : bytes := pending st buf ++ concat reads.

Lemma framed_next_spec e : forall reads st buf, st_ok st ->
  match framed_next st buf reads e with
  | (Frame f, st', buf', reads') =>
      st' = Head /\ exists h, total st buf reads = h ++ f ++ total st' buf' reads' /\ length h = 4%nat /\ be h = blen f /\ blen f <= 65535
  | (r, _, _, _) =>
      exists rem, frames (total st buf reads) [] rem /\ r = verdict rem e
  end.
Proof.
  induction reads as [|c reads IH]; intros st buf W; cbn [framed_next];
    pose proof (frame_decode_spec st buf W) as D; destruct (frame_decode st buf) as [f rest|st' rest|].
  - destruct D as (h & E & L & B & M). split; auto. exists h. unfold total. rewrite E. cbn [concat pending]. rewrite <- !app_assoc. auto.
  - destruct D as (E & U & W' & HL). unfold total. cbn [concat]. rewrite app_nil_r.
    assert (F : frames (pending st buf) [] (Unfinished (pending st buf))) by now constructor.
    destruct e; [eexists; (split; [exact F|]); reflexivity | | eexists; (split; [exact F|]); reflexivity].
    assert (V : (match rest with [] => FrameEnd | _ => FrameError end) = verdict (Unfinished (pending st buf)) Closed).
    { cbn [verdict]. rewrite <- E. destruct rest as [|c rest]; destruct st' as [|n]; cbn [pending].
      + reflexivity.
      + rewrite app_nil_r, be_bytes_length. reflexivity.
      + destruct rest as [|? [|? [|? ?]]]; cbn [length] in *; try reflexivity. lia.
      + rewrite app_length, be_bytes_length. reflexivity. }
    destruct rest; eexists; (split; [exact F|exact V]).
  - destruct D as (h & t & E & L & B). unfold total. cbn [concat]. rewrite app_nil_r, E. eexists. split; [now constructor|].
    destruct e; reflexivity.
  - destruct D as (h & E & L & B & M). split; auto. exists h. unfold total. rewrite E. cbn [pending]. rewrite <- !app_assoc. auto.
  - destruct D as (E & U & W' & HL). specialize (IH st' (rest ++ c) W').
    replace (total st buf (c :: reads)) with (total st' (rest ++ c) reads); [exact IH|].
    unfold total. cbn [concat]. rewrite <- E. destruct st'; cbn [pending]; now rewrite <- !app_assoc.
  - destruct D as (h & t & E & L & B). unfold total. rewrite E, <- app_assoc. eexists. split; [now constructor|].
    destruct e; reflexivity.
Qed.

Lemma framed_all_spec e : forall fuel st buf reads, st_ok st -> (length (total st buf reads) < fuel)%nat ->
  exists rem, frames (total st buf reads) (fst (framed_all fuel st buf reads e)) rem /\
    snd (framed_all fuel st buf reads e) = verdict rem e.
Proof.
  induction fuel as [|f IH]; intros st buf reads W HF; [lia|]. cbn [framed_all].
  pose proof (framed_next_spec e reads st buf W) as S.
  destruct (framed_next st buf reads e) as [[[r st'] buf'] reads']. destruct r as [x| | |].
  - destruct S as (-> & h & E & L & B & M).
    destruct (IH Head buf' reads' I) as (rem & F & V).
    { rewrite E, !app_length in HF. lia. }
    destruct (framed_all f Head buf' reads' e) as [fs r]. cbn [fst snd] in *. exists rem. split; auto. rewrite E. now constructor.
  - destruct S as (rem & F & ->). exists rem. auto.
  - destruct S as (rem & F & ->). exists rem. auto.
  - destruct S as (rem & F & ->). exists rem. auto.
Qed.

Lemma all_frames_spec reads e :
  exists rem, frames (concat reads) (fst (all_frames reads e)) rem /\ snd (all_frames reads e) = verdict rem e.
Proof. unfold all_frames. apply (framed_all_spec e (S (length (concat reads))) Head [] reads I). unfold total. cbn. lia. Qed.

Lemma segmentation reads e : 
  (exists rem, frames (concat reads) (fst (all_frames reads e)) rem /\ snd (all_frames reads e) = verdict rem e) /\
  (forall reads', concat reads' = concat reads -> all_frames reads' e = all_frames reads e).
Proof.
  split; [apply all_frames_spec|]. intros reads' E.
  destruct (all_frames_spec reads e) as (r1 & F1 & V1), (all_frames_spec reads' e) as (r2 & F2 & V2).
  rewrite E in F2. destruct (frames_fun _ _ _ F1 _ _ F2) as [E1 E2]. subst r2.
  destruct (all_frames reads e), (all_frames reads' e). cbn in *. congruence.
Qed.

Lemma frames_of_sent msgs enc : Forall2 (fun m b => frame_encode m = Some b) msgs enc ->
  forall tail fs r, frames tail fs r -> frames (concat enc ++ tail) (msgs ++ fs) r.
Proof.
  induction 1 as [|m b msgs enc E _ IH]; intros tail fs r F; [exact F|]. cbn [concat app].
  unfold frame_encode, MAX_PEER_MSG_LEN in E. destruct (N.ltb_spec 65535 (blen m)); [discriminate|]. assert (EB : b = be_bytes 4 (blen m) ++ m) by congruence. subst b. clear E.
  rewrite <- !app_assoc.
  apply fr_cons; [apply be_bytes_length|apply be_be_bytes; change (256 ^ N.of_nat 4) with 4294967296; lia|assumption|auto].
Qed.

Lemma sent_received msgs enc reads e : Forall2 (fun m b => frame_encode m = Some b) msgs enc -> concat reads = concat enc ->
  fst (all_frames reads e) = msgs.
Proof.
  intros F E. destruct (all_frames_spec reads e) as (r & H & _). rewrite E in H.
  pose proof (frames_of_sent _ _ F [] [] (Unfinished []) ltac:(constructor; left; cbn; lia)) as H2.
  rewrite !app_nil_r in H2. now destruct (frames_fun _ _ _ H _ _ H2).
Qed.

Lemma frame_encode_spec m : (forall b, frame_encode m = Some b <-> blen m <= 65535 /\ exists h, b = h ++ m /\ length h = 4%nat /\ be h = blen m).
Proof.
  intros b. unfold frame_encode, MAX_PEER_MSG_LEN. destruct (N.ltb_spec 65535 (blen m)) as [H|H].
  - split; [discriminate|intros [? _]; lia].
  - split.
    + intros [= <-]. split; auto. exists (be_bytes 4 (blen m)). split; auto. split; [apply be_bytes_length|]. apply be_be_bytes.
      change (256 ^ N.of_nat 4) with 4294967296. lia.
    + intros [_ (h & -> & L & E)]. rewrite <- E, be_bytes_be by auto. reflexivity.
Qed.
