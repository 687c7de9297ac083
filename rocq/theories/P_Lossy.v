(** The model's lossy decoding is the recommended one. *)
From Verif Require Import Base BaseFacts S_Utf8 S_Lossy M_Utf8 P_Utf8.

Definition begins (p : bytes) : bool :=
  match p with
  | [b0] => (194 <=? b2n b0) && (b2n b0 <=? 244)
  | [b0; b1] => (224 <=? b2n b0) && (b2n b0 <=? 239) && second3 (b2n b0) b1 || (240 <=? b2n b0) && (b2n b0 <=? 244) && second4 (b2n b0) b1
  | [b0; b1; b2] => (240 <=? b2n b0) && (b2n b0 <=? 244) && second4 (b2n b0) b1 && is_cont b2
  | _ => false
  end.

Lemma step_begins p q c : p <> [] -> q <> [] -> utf8_step (p ++ q) = Some (Some c, []) -> begins p = true.
Proof.
  intros P Q H. destruct p as [|b0 p]; [congruence|]. cbn [app utf8_step] in H.
  destruct (b2n b0 <? 128) eqn:E1. { injection H as _ H. destruct p; [|discriminate]. cbn in H. congruence. }
  destruct ((194 <=? b2n b0) && (b2n b0 <=? 223)) eqn:E2.
  { destruct p as [|b1 p]; [unfold begins; lia|]. cbn [app] in H. destruct (is_cont b1); [|discriminate]. injection H as _ H.
    destruct p; [|discriminate]. cbn in H. congruence. }
  destruct ((224 <=? b2n b0) && (b2n b0 <=? 239)) eqn:E3.
  { destruct p as [|b1 p]; [unfold begins; lia|]. cbn [app] in H. destruct (second3 (b2n b0) b1) eqn:E4; [|discriminate].
    destruct p as [|b2 p]; [unfold begins; rewrite E3, E4; reflexivity|]. cbn [app] in H. destruct (is_cont b2); [|discriminate]. injection H as _ H.
    destruct p; [|discriminate]. cbn in H. congruence. }
  destruct ((240 <=? b2n b0) && (b2n b0 <=? 244)) eqn:E4; [|discriminate].
  destruct p as [|b1 p]; [unfold begins; lia|]. cbn [app] in H. destruct (second4 (b2n b0) b1) eqn:E5; [|discriminate].
  destruct p as [|b2 p]; [unfold begins; rewrite E4, E5; apply orb_true_r|]. cbn [app] in H. destruct (is_cont b2) eqn:E6; [|discriminate].
  destruct p as [|b3 p]; [unfold begins; rewrite E4, E5, E6; reflexivity|]. cbn [app] in H. destruct (is_cont b3); [|discriminate]. injection H as _ H.
  destruct p; [|discriminate]. cbn in H. congruence.
Qed.
Lemma step_beginning p q c : p <> [] -> q <> [] -> utf8_step (p ++ q) = Some (Some c, []) -> beginning p.
Proof. intros P Q H. apply utf8_step_sound in H as (S & E). rewrite app_nil_r in E. exists c, q. auto. Qed.

Lemma begins_iff p : beginning p <-> begins p = true.
Proof.
  split.
  - intros (c & q & S & E & P & Q). apply (step_begins p q c P Q). rewrite <- E, <- (app_nil_r (utf8_char c)). now apply utf8_step_char.
  - intros H. unfold begins in H. destruct p as [|b0 [|b1 [|b2 [|]]]]; try discriminate.
    + destruct (b2n b0 <=? 223) eqn:E1.
      { eapply (step_beginning [b0] [x80]); try discriminate. cbn [app utf8_step].
        replace (b2n b0 <? 128) with false by lia. replace ((194 <=? b2n b0) && (b2n b0 <=? 223)) with true by lia. reflexivity. }
      destruct (b2n b0 <=? 239) eqn:E2.
      { assert (exists b1, second3 (b2n b0) b1 = true) as (b1 & E).
        { unfold second3. destruct (N.eqb_spec (b2n b0) 224) as [_|]; [exists xa0; reflexivity|]. destruct (_ =? _); exists x80; reflexivity. }
        eapply (step_beginning [b0] [b1; x80]); try discriminate. cbn [app utf8_step].
        replace (b2n b0 <? 128) with false by lia. replace ((194 <=? b2n b0) && (b2n b0 <=? 223)) with false by lia.
        replace ((224 <=? b2n b0) && (b2n b0 <=? 239)) with true by lia. rewrite E. reflexivity. }
      assert (exists b1, second4 (b2n b0) b1 = true) as (b1 & E).
      { unfold second4. destruct (N.eqb_spec (b2n b0) 240) as [_|]; [exists x90; reflexivity|]. destruct (_ =? _); exists x80; reflexivity. }
      eapply (step_beginning [b0] [b1; x80; x80]); try discriminate. cbn [app utf8_step].
      replace (b2n b0 <? 128) with false by lia. replace ((194 <=? b2n b0) && (b2n b0 <=? 223)) with false by lia.
      replace ((224 <=? b2n b0) && (b2n b0 <=? 239)) with false by lia. replace ((240 <=? b2n b0) && (b2n b0 <=? 244)) with true by lia. rewrite E. reflexivity.
    + apply orb_prop in H as [H|H]; apply andb_prop in H as (H & E).
      * eapply (step_beginning [b0; b1] [x80]); try discriminate. cbn [app utf8_step].
        replace (b2n b0 <? 128) with false by lia. replace ((194 <=? b2n b0) && (b2n b0 <=? 223)) with false by lia.
        replace ((224 <=? b2n b0) && (b2n b0 <=? 239)) with true by lia. rewrite E. reflexivity.
      * eapply (step_beginning [b0; b1] [x80; x80]); try discriminate. cbn [app utf8_step].
        replace (b2n b0 <? 128) with false by lia. replace ((194 <=? b2n b0) && (b2n b0 <=? 223)) with false by lia.
        replace ((224 <=? b2n b0) && (b2n b0 <=? 239)) with false by lia. replace ((240 <=? b2n b0) && (b2n b0 <=? 244)) with true by lia. rewrite E. reflexivity.
    + apply andb_prop in H as (H & C). apply andb_prop in H as (H & E).
      eapply (step_beginning [b0; b1; b2] [x80]); try discriminate. cbn [app utf8_step].
      replace (b2n b0 <? 128) with false by lia. replace ((194 <=? b2n b0) && (b2n b0 <=? 223)) with false by lia.
      replace ((224 <=? b2n b0) && (b2n b0 <=? 239)) with false by lia. replace ((240 <=? b2n b0) && (b2n b0 <=? 244)) with true by lia. rewrite E, C. reflexivity.
Qed.

(** Where the step finds no character: the longest beginning, or one byte. *)
Definition part (s p : bytes) : Prop :=
  (begins p = true /\ forall p' r', s = p' ++ r' -> begins p' = true -> (length p' <= length p)%nat) \/
  (length p = 1%nat /\ forall p' r', s = p' ++ r' -> begins p' = false).

Ltac pfx := intros p' r' EQ BP;
  destruct p' as [|c0 [|c1 [|c2 [|c3 p']]]]; cbn [length]; try lia; exfalso; cbn [app] in EQ; try discriminate EQ; injection EQ; intros; subst;
  unfold begins in BP; try discriminate BP.
Lemma step_part s r : utf8_step s = Some (None, r) -> exists p, s = p ++ r /\ part s p.
Proof.
  intros H. destruct s as [|b0 s]; [discriminate|]. cbn [utf8_step] in H.
  destruct (b2n b0 <? 128) eqn:E1; [discriminate|].
  destruct ((194 <=? b2n b0) && (b2n b0 <=? 223)) eqn:E2.
  { assert (r = s) as -> by (destruct s as [|b1 s]; [|destruct (is_cont b1); [discriminate|]]; congruence).
    exists [b0]. split; [reflexivity|]. left. split; [unfold begins; lia|]. pfx; lia. }
  destruct ((224 <=? b2n b0) && (b2n b0 <=? 239)) eqn:E3.
  { destruct s as [|b1 s].
    { exists [b0]. assert (r = []) as -> by congruence. split; [reflexivity|]. left. split; [unfold begins; lia|]. pfx. }
    destruct (second3 (b2n b0) b1) eqn:E4.
    - assert (r = s) as -> by (destruct s as [|b2 s]; [|destruct (is_cont b2); [discriminate|]]; congruence).
      exists [b0; b1]. split; [reflexivity|]. left. split; [unfold begins; now rewrite E3, E4|]. pfx; lia.
    - assert (r = b1 :: s) as -> by congruence. exists [b0]. split; [reflexivity|]. left. split; [unfold begins; lia|].
      pfx; rewrite ?E4, ?andb_false_r in BP; cbn [orb] in BP; lia. }
  destruct ((240 <=? b2n b0) && (b2n b0 <=? 244)) eqn:E4.
  { destruct s as [|b1 s].
    { exists [b0]. assert (r = []) as -> by congruence. split; [reflexivity|]. left. split; [unfold begins; lia|]. pfx. }
    destruct (second4 (b2n b0) b1) eqn:E5.
    - destruct s as [|b2 s].
      { exists [b0; b1]. assert (r = []) as -> by congruence. split; [reflexivity|]. left. split; [unfold begins; rewrite E4, E5; apply orb_true_r|]. pfx. }
      destruct (is_cont b2) eqn:E6.
      + assert (r = s) as -> by (destruct s as [|b3 s]; [|destruct (is_cont b3); [discriminate|]]; congruence).
        exists [b0; b1; b2]. split; [reflexivity|]. left. split; [unfold begins; now rewrite E4, E5, E6|]. pfx.
      + assert (r = b2 :: s) as -> by congruence. exists [b0; b1]. split; [reflexivity|]. left. split; [unfold begins; rewrite E4, E5; apply orb_true_r|].
        pfx. rewrite E6, andb_false_r in BP. discriminate.
    - assert (r = b1 :: s) as -> by congruence. exists [b0]. split; [reflexivity|]. left. split; [unfold begins; lia|].
      pfx; rewrite ?E5, ?andb_false_r in BP; cbn [andb] in BP; try discriminate BP; lia. }
  assert (r = s) as -> by congruence. exists [b0]. split; [reflexivity|]. right. split; [reflexivity|].
  intros p' r' EQ. destruct (begins p') eqn:BP; [|reflexivity]. exfalso.
  destruct p' as [|c0 [|c1 [|c2 [|c3 p']]]]; cbn [app] in EQ; try discriminate BP; injection EQ; intros; subst; unfold begins in BP; lia.
Qed.

Lemma part_unique s p r p' r' : s = p ++ r -> s = p' ++ r' -> part s p -> part s p' -> p = p' /\ r = r'.
Proof.
  intros E E' H H'. assert (length p = length p') as L.
  { destruct H as [(B & M)|(L & N)], H' as [(B' & M')|(L' & N')].
    - specialize (M _ _ E' B'). specialize (M' _ _ E B). lia.
    - rewrite (N' _ _ E) in B. discriminate.
    - rewrite (N _ _ E') in B'. discriminate.
    - lia. }
  rewrite E in E'. clear - L E'. revert p' L E'. induction p as [|x p IH]; intros [|y p'] L E; try discriminate L; cbn in *; auto.
  injection E as -> E. injection L as L. destruct (IH _ L E) as (-> & ->). auto.
Qed.
Lemma no_char s r : utf8_step s = Some (None, r) -> forall c r', scalar c -> s <> utf8_char c ++ r'.
Proof. intros H c r' S ->. rewrite utf8_step_char in H by auto. discriminate. Qed.
Lemma part_step s p r : s = p ++ r -> s <> [] -> (forall c r', scalar c -> s <> utf8_char c ++ r') -> part s p -> utf8_step s = Some (None, r).
Proof.
  intros E NE NC P. destruct (utf8_step_some s NE) as ([c|] & r' & H).
  - apply utf8_step_sound in H as (S & X). now apply NC in X.
  - destruct (step_part _ _ H) as (p' & E' & P'). destruct (part_unique _ _ _ _ _ E E' P P') as (_ & ->). exact H.
Qed.

Lemma lossy_chars_cons s i r : utf8_step s = Some (i, r) -> lossy_chars s = match i with Some c => c | None => 65533 end :: lossy_chars r.
Proof. intros H. unfold lossy_chars. rewrite (utf8_decode_cons _ _ _ H). cbn [map]. f_equal. Qed.

Lemma lossy_iff s cs : lossy s cs <-> lossy_chars s = cs.
Proof.
  split.
  - induction 1 as [|c r cs S H IH|p r cs NC B M H IH|b r cs NC NB H IH].
    + reflexivity.
    + rewrite (lossy_chars_cons _ _ _ (utf8_step_char c r S)). congruence.
    + assert (ST : utf8_step (p ++ r) = Some (None, r)).
      { eapply part_step; eauto.
        - destruct B as (c & q & _ & _ & P & _). destruct p; [congruence|discriminate].
        - left. split; [now apply begins_iff|]. intros p' r' E BP. apply (M p' r'); auto. now apply begins_iff. }
      rewrite (lossy_chars_cons _ _ _ ST). congruence.
    + assert (ST : utf8_step (b :: r) = Some (None, r)).
      { apply (part_step (b :: r) [b] r); auto; [discriminate|]. right. split; [reflexivity|]. intros p' r' E.
        destruct (begins p') eqn:B; [|reflexivity]. apply begins_iff in B. now apply NB in E. }
      rewrite (lossy_chars_cons _ _ _ ST). congruence.
  - intros <-. remember (length s) as n eqn:L. revert s L. induction n as [n IH] using lt_wf_ind. intros s ->.
    destruct s as [|b s]; [constructor|]. destruct (utf8_step_some (b :: s)) as (i & r & H); [discriminate|].
    pose proof (utf8_step_shrinks _ _ _ H) as SH. specialize (IH _ SH r eq_refl). rewrite (lossy_chars_cons _ _ _ H).
    destruct i as [c|].
    + apply utf8_step_sound in H as (S & ->). now constructor.
    + pose proof (no_char _ _ H) as NC. destruct (step_part _ _ H) as (p & E & [(B & M)|(L & N)]).
      * rewrite E in *. apply Lossy_part; auto; [now apply begins_iff|]. intros p' r' E' B'. apply (M p' r'); auto. now apply begins_iff.
      * destruct p as [|b' [|]]; try discriminate L. cbn [app] in E. rewrite E in *. apply Lossy_byte; auto.
        intros p' r' E' B'. apply begins_iff in B'. now rewrite (N _ _ E') in B'.
Qed.
Lemma from_lossy s t : from_utf8_lossy s = t <-> exists cs, lossy s cs /\ t = utf8 cs.
Proof.
  unfold from_utf8_lossy. split.
  - intros <-. eexists. split; [now apply lossy_iff|reflexivity].
  - intros (cs & H & ->). apply lossy_iff in H. now subst.
Qed.
