From Verif Require Import Base BaseFacts M_Frame M_Mse S_Memory.

Definition st_ok (st : dec_state) : Prop := match st with Head => True | Data n => n <= 65535 end.
Lemma more_bound st buf st' rest : st_ok st -> frame_decode st buf = DMore st' rest -> st_ok st' /\ blen rest < 65535 /\ blen rest <= blen buf.
Proof.
  unfold frame_decode, decode_data. destruct st as [|n]; cbn [st_ok]; intros OK.
  - destruct (N.ltb_spec (blen buf) 4) as [L|L]; [intros [= <- <-]; cbn; lia|]. unfold MAX_PEER_MSG_LEN. destruct (N.ltb_spec 65535 (be_val (firstn 4 buf))) as [|LE]; [discriminate|].
    assert (SK : blen (skipn 4 buf) <= blen buf) by (unfold blen; rewrite skipn_length; lia). revert SK. generalize (be_val (firstn 4 buf)) LE. generalize (skipn 4 buf). intros d n LN SK.
    destruct (N.ltb_spec (blen d) n) as [A|]; [|discriminate]. intros [= <- <-]. cbn [st_ok]. split; [exact LN|lia].
  - destruct (N.ltb_spec (blen buf) n) as [L|L]; [|discriminate]. intros [= <- <-]. cbn [st_ok]. lia.
Qed.
Lemma frame_less st buf f rest : frame_decode st buf = DFrame f rest -> blen rest <= blen buf.
Proof.
  assert (DD : forall n d, decode_data n d = DFrame f rest -> blen rest <= blen d). { intros n d. unfold decode_data. destruct (_ <? _); [discriminate|]. intros E. assert (rest = dropN n d) as -> by congruence. unfold dropN, blen. rewrite skipn_length. lia. }
  unfold frame_decode. destruct st as [|n]; [|apply DD]. destruct (_ <? 4); [discriminate|]. destruct (_ <? _); [discriminate|]. intros E. apply DD in E. revert E. unfold blen. rewrite skipn_length. lia.
Qed.
Section R.
Context (M : N) (e : ending).
Lemma next_bound reads : Forall (fun c => blen c <= M) reads -> forall st buf r st' buf' reads', st_ok st -> blen buf <= M + 65534 ->
  framed_next st buf reads e = (r, st', buf', reads') -> st_ok st' /\ blen buf' <= M + 65534 /\ Forall (fun c => blen c <= M) reads' /\ (r = FramePending -> blen buf' < 65535).
Proof.
  induction 1 as [|c reads LC FR IH]; intros st buf r st' buf' reads' OK B; cbn [framed_next]; destruct (frame_decode st buf) as [f rest|st1 rest|] eqn:D.
  - intros [= <- <- <- <-]. pose proof (frame_less _ _ _ _ D). cbn. split; [exact I|]. split; [lia|]. split; [constructor|discriminate].
  - destruct (more_bound _ _ _ _ OK D) as (A & C & _). destruct e; intros [= <- <- <- <-]; (split; [exact A|split; [lia|split; [constructor|auto]]]).
  - intros [= <- <- <- <-]. split; [exact OK|]. split; [exact B|]. split; [constructor|discriminate].
  - intros [= <- <- <- <-]. pose proof (frame_less _ _ _ _ D). cbn. split; [exact I|]. split; [lia|]. split; [constructor; auto|discriminate].
  - destruct (more_bound _ _ _ _ OK D) as (A & C & _). apply IH; [exact A|]. unfold blen in *. rewrite app_length. lia.
  - intros [= <- <- <- <-]. split; [exact OK|]. split; [exact B|]. split; [constructor; auto|discriminate].
Qed.
Lemma reader_ok st buf reads : reader M e st buf reads -> st_ok st /\ blen buf <= M + 65534 /\ Forall (fun c => blen c <= M) reads.
Proof.
  induction 1 as [reads F|st buf reads r st' buf' reads' _ (A & B & C) N]; [cbn; split; [exact I|]; split; [unfold blen; cbn; lia|exact F]|].
  destruct (next_bound _ C _ _ _ _ _ _ A B N) as (X & Y & Z & _). auto.
Qed.
Lemma reader_bound st buf reads : reader M e st buf reads -> blen buf <= M + 65534 /\
  forall st' buf' reads', framed_next st buf reads e = (FramePending, st', buf', reads') -> blen buf' < 65535.
Proof.
  intros R. destruct (reader_ok _ _ _ R) as (A & B & C). split; [exact B|]. intros st' buf' reads' N. exact (proj2 (proj2 (proj2 (next_bound _ C _ _ _ _ _ _ A B N))) eq_refl).
Qed.
End R.

Lemma split_rest n b x y : splitN n b = (x, y) -> blen y = blen b - n.
Proof. unfold splitN. intros [= _ <-]. unfold blen. rewrite skipn_length. lia. Qed.
Definition held (M : N) (st : hs_state) (buf : bytes) : Prop :=
  match st with
  | Packet2 _ => True
  | Packet4 _ (PadD _ _) => buf = []
  | Packet4 _ _ => blen buf < 8
  | Done _ => blen buf < 8 + M
  end.
Ltac brk := match goal with |- context [splitN ?n ?b] => let E := fresh "E" in destruct (splitN n b) as [? ?] eqn:E; apply split_rest in E end.
Lemma held_padd M ks m needed buf st rest : blen buf < 8 + M -> in_padd ks m needed buf = Ok (st, rest) -> held M st rest.
Proof.
  intros B. unfold in_padd. brk. destruct (ks_decode ks b) as [? ks']. destruct (N.eqb_spec (needed - N.min needed (blen buf)) 0) as [Z|Z]; intros [= <- <-]; cbn [held]; [lia|].
  destruct b0 as [|c b0]; [reflexivity|]. exfalso. unfold blen in *. cbn [length] in *. lia.
Qed.
Lemma held_len M ks m buf st rest : blen buf < 8 + M -> in_len ks m buf = Ok (st, rest) -> held M st rest.
Proof.
  intros B. unfold in_len. destruct (N.ltb_spec (blen buf) 2) as [L|L]; [intros [= <- <-]; cbn [held]; lia|]. brk. destruct (ks_decode ks b) as [? ks']. apply held_padd. lia.
Qed.
Lemma held_select M p ks buf st rest : blen buf < 8 + M -> in_select p ks buf = Ok (st, rest) -> held M st rest.
Proof.
  intros B. unfold in_select. destruct (N.ltb_spec (blen buf) 4) as [L|L]; [intros [= <- <-]; cbn [held]; lia|]. brk. destruct (ks_decode ks b) as [? ks'].
  destruct (negb _); [discriminate|]. destruct (method_of _); [|discriminate]. destruct (negb _); [discriminate|]. apply held_len. lia.
Qed.
Lemma held_vc M p ks buf st rest : blen buf < 8 + M -> in_vc p ks buf = Ok (st, rest) -> held M st rest.
Proof.
  intros B. unfold in_vc. destruct (N.ltb_spec (blen buf) 8) as [L|L]; [intros [= <- <-]; cbn [held]; lia|]. brk. destruct (ks_decode ks b) as [? ks'].
  destruct (negb _); [discriminate|]. apply held_select. lia.
Qed.
Lemma held_input M s b s' : held M (h_state s) (h_input s) -> into_keystream s = None -> blen b <= M -> handle_input s b = Ok s' -> held M (h_state s') (h_input s').
Proof.
  intros IH NK LB H. unfold handle_input in H. unfold into_keystream in NK. destruct (h_state s) as [k|ks sub|ks]; [injection H as <-; exact I| |discriminate NK].
  assert (B : blen (h_input s ++ b) < 8 + M). { cbn [held] in IH. unfold blen in *. rewrite app_length. destruct sub; try lia. rewrite IH. cbn [length Nat.add]. lia. }
  destruct (match sub with Vc => in_vc (h_provide s) ks (h_input s ++ b) | Select => in_select (h_provide s) ks (h_input s ++ b) | LenPadD m => in_len ks m (h_input s ++ b) | PadD m needed => in_padd ks m needed (h_input s ++ b) end)
    as [[st rest]|x] eqn:E; [|discriminate H]. injection H as <-. cbn [h_state h_input set_input].
  destruct sub; [eapply held_vc|eapply held_select|eapply held_len|eapply held_padd]; eauto.
Qed.
Lemma held_timeout M s s' : held M (h_state s) (h_input s) -> into_keystream s = None -> handle_timeout s = Ok s' -> held M (h_state s') (h_input s').
Proof.
  intros IH NK H. assert (T : match handle_timeout s with Ok s1 => held M (h_state s1) (h_input s1) | Err _ => True end); [|rewrite H in T; exact T]. clear H.
  unfold handle_timeout. unfold into_keystream in NK. destruct (h_state s) as [k|ks sub|ks] eqn:ES; [|rewrite ES; exact IH|discriminate NK].
  destruct (negb _); [exact I|]. repeat match goal with |- context [let (_, _) := ?x in _] => destruct x end. cbn [h_state h_input held]. reflexivity.
Qed.
Lemma shaking_held M skey secs pada padc key s got : shaking M skey secs pada padc key s got -> held M (h_state s) (h_input s).
Proof.
  induction 1 as [|s got b s' _ IH NK LB H|s got s' _ IH NK H|s got _ IH]; [exact I|eapply held_input; eauto|eapply held_timeout; eauto|exact IH].
Qed.
Lemma loop_held M fuel : forall s deadline now reads out t ks rest left, held M (h_state s) (h_input s) -> each_at_most M reads ->
  hs_loop fuel s deadline now reads = (out, HDone t ks rest left) -> blen rest < 8 + M.
Proof.
  induction fuel as [|fuel IH]; intros s deadline now reads out t ks rest left HS EA; cbn [hs_loop]; [discriminate|].
  destruct (into_keystream s) as [[ks1 rest1]|] eqn:NK.
  { intros [= _ _ _ <- _]. unfold into_keystream in NK. destruct (h_state s) as [k|k1 sub|k1] eqn:ES; try discriminate NK. cbn [held] in HS. assert (rest1 = h_input s) as -> by congruence. exact HS. }
  set (s1 := mkShaker (h_state s) None (h_padc_len s) (h_skey s) None (h_input s) (h_provide s)). assert (N1 : into_keystream s1 = None) by exact NK. assert (H1 : held M (h_state s1) (h_input s1)) by exact HS.
  match goal with |- context [match ?x with Ret _ => _ | Panic => _ end] => destruct x as [dl|] end; [|intros E; apply (f_equal snd) in E; discriminate E].
  assert (RD : forall t1 r1 reads1 o x, each_at_most M reads1 -> (forall b, r1 = RData b -> blen b <= M) ->
     match r1 with RData b => match handle_input s1 b with Err e => ([], HFail t1 e) | Ok s2 => hs_loop fuel s2 dl t1 reads1 end | REof => ([], HFail t1 HDisconnect) | RError => ([], HFail t1 HRecv) end = (o, x) ->
     x = HDone t ks rest left -> blen rest < 8 + M).
  { intros t1 r1 reads1 o x E1 LB E EX. destruct r1 as [b| |]; [|apply (f_equal snd) in E; cbn in E; congruence..]. destruct (handle_input s1 b) as [s2|er] eqn:HI; [|apply (f_equal snd) in E; cbn in E; congruence].
    subst x. eapply IH; [eapply held_input; eauto|exact E1|exact E]. }
  assert (EXP : forall d o x, match handle_timeout s1 with Err e => ([], HFail d e) | Ok s2 => hs_loop fuel s2 None d reads end = (o, x) -> x = HDone t ks rest left -> blen rest < 8 + M).
  { intros d o x E EX. destruct (handle_timeout s1) as [s2|er] eqn:HI; [|apply (f_equal snd) in E; cbn in E; congruence]. subst x. eapply IH; [eapply held_timeout; eauto|exact EA|exact E]. }
  match goal with |- context [let (_, _) := ?x in _] => destruct x as [o r] eqn:E end. intros F. assert (FR : r = HDone t ks rest left) by congruence.
  destruct reads as [|[t1 r1] reads1].
  - destruct dl as [d|]; [eapply EXP; eauto|congruence].
  - assert (EA1 : each_at_most M reads1) by (intros t2 b2 I2; apply (EA t2); now right). assert (LB : forall b, r1 = RData b -> blen b <= M) by (intros b ->; apply (EA t1); now left).
    destruct dl as [d|]; [|eapply RD; eauto]. destruct (N.max now t1 <=? d); [eapply RD; eauto|eapply EXP; eauto].
Qed.
Lemma shaking_bound M skey secs pada padc key s got : shaking M skey secs pada padc key s got -> ~ awaiting_key s -> blen (h_input s) < 8 + M.
Proof.
  intros R N. apply shaking_held in R. unfold awaiting_key in N. destruct (h_state s) as [k|ks sub|ks]; [destruct N; eauto| |exact R]. cbn [held] in R. destruct sub; try lia. rewrite R. unfold blen. cbn [length]. lia.
Qed.
Lemma shaking_grows skey secs pada padc key n : exists s, shaking 65535 skey secs pada padc key s (repeat x00 n) /\ awaiting_key s /\ h_input s = repeat x00 n.
Proof.
  induction n as [|n (s & R & (k & A) & B)].
  - eexists. split; [apply sh_start|]. split; [exists (be_val key); reflexivity|reflexivity].
  - exists (set_input s (h_state s) (h_input s ++ [x00])). replace (repeat x00 (S n)) with (repeat x00 n ++ [x00]) by (symmetry; apply repeat_cons).
    split; [|split; [exists k; exact A|cbn; congruence]]. apply (sh_read _ _ _ _ _ _ s); [exact R|unfold into_keystream; now rewrite A|unfold blen; cbn; lia|unfold handle_input; now rewrite A].
Qed.
Lemma shaking_unbounded skey secs pada padc key : ~ exists bound, forall s got, shaking 65535 skey secs pada padc key s got -> blen (h_input s) <= bound.
Proof.
  intros (bound & B). destruct (shaking_grows skey secs pada padc key (S (N.to_nat bound))) as (s & R & _ & E). apply B in R. rewrite E in R. unfold blen in R. rewrite repeat_length in R. lia.
Qed.
Lemma shaking_partial M skey secs pada padc key :
  (forall s got, shaking M skey secs pada padc key s got -> ~ awaiting_key s -> blen (h_input s) < 8 + M) /\
  forall now reads out t ks rest left, each_at_most M reads ->
    handshake skey secs pada padc key now reads = (out, HDone t ks rest left) -> blen rest < 8 + M.
Proof.
  split; [exact (shaking_bound M skey secs pada padc key)|].
  intros now reads out t ks rest left EA. unfold handshake. apply loop_held; [exact I|exact EA].
Qed.
