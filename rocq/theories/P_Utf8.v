From Verif Require Import Base BaseFacts S_Utf8 M_Utf8.

Ltac b2n_simp := repeat (rewrite b2n_n2b_small by lia).

Lemma utf8_char_len c : (1 <= length (utf8_char c))%nat.
Proof. unfold utf8_char. repeat destruct (_ <? _); cbn; lia. Qed.

Lemma utf8_step_char c r : scalar c -> utf8_step (utf8_char c ++ r) = Some (Some c, r).
Proof.
  intros Hs. unfold scalar in Hs. unfold utf8_char.
  destruct (N.ltb_spec c 128).
  { cbn [app utf8_step]. b2n_simp. destruct (N.ltb_spec c 128); [reflexivity|lia]. }
  destruct (N.ltb_spec c 2048).
  { assert (c / 64 < 32) by lia. assert (c mod 64 < 64) by lia.
    cbn [app utf8_step]. unfold is_cont. b2n_simp.
    replace (192 + c / 64 <? 128) with false by lia.
    replace ((194 <=? 192 + c / 64) && (192 + c / 64 <=? 223)) with true by lia.
    replace ((128 <=? 128 + c mod 64) && (128 + c mod 64 <? 192)) with true by lia.
    do 3 f_equal. lia. }
  destruct (N.ltb_spec c 65536).
  { assert (c / 4096 < 16) by lia. assert (c / 64 mod 64 < 64) by lia. assert (c mod 64 < 64) by lia.
    cbn [app utf8_step]. unfold is_cont, second3, in_range. b2n_simp.
    replace (224 + c / 4096 <? 128) with false by lia.
    replace ((194 <=? 224 + c / 4096) && (224 + c / 4096 <=? 223)) with false by lia.
    replace ((224 <=? 224 + c / 4096) && (224 + c / 4096 <=? 239)) with true by lia.
    replace (if 224 + c / 4096 =? 224 then _ else _) with true.
    2: { destruct (N.eqb_spec (224 + c / 4096) 224); [lia|].
         destruct (N.eqb_spec (224 + c / 4096) 237); lia. }
    replace ((128 <=? 128 + c mod 64) && (128 + c mod 64 <? 192)) with true by lia.
    do 3 f_equal. lia. }
  assert (c / 262144 < 5) by lia. assert (c / 4096 mod 64 < 64) by lia.
  assert (c / 64 mod 64 < 64) by lia. assert (c mod 64 < 64) by lia.
  cbn [app utf8_step]. unfold is_cont, second4, in_range. b2n_simp.
  replace (240 + c / 262144 <? 128) with false by lia.
  replace ((194 <=? 240 + c / 262144) && (240 + c / 262144 <=? 223)) with false by lia.
  replace ((224 <=? 240 + c / 262144) && (240 + c / 262144 <=? 239)) with false by lia.
  replace ((240 <=? 240 + c / 262144) && (240 + c / 262144 <=? 244)) with true by lia.
  replace (if 240 + c / 262144 =? 240 then _ else _) with true.
  2: { destruct (N.eqb_spec (240 + c / 262144) 240); [lia|].
       destruct (N.eqb_spec (240 + c / 262144) 244); lia. }
  replace ((128 <=? 128 + c mod 64) && (128 + c mod 64 <? 192)) with true by lia.
  replace ((128 <=? 128 + c / 64 mod 64) && (128 + c / 64 mod 64 <? 192)) with true by lia.
  do 3 f_equal. lia.
Qed.

Lemma utf8_step_sound l c r : utf8_step l = Some (Some c, r) -> scalar c /\ l = utf8_char c ++ r.
Proof.
  unfold utf8_step. destruct l as [|b0 r0]; [discriminate|]. pose proof (b2n_bound b0).
  assert (R : forall b n, b2n b = n -> n2b n = b) by (intros; subst; apply n2b_b2n).
  destruct (N.ltb_spec (b2n b0) 128).
  { intros E; inversion E; subst. split; [left; lia|]. unfold utf8_char.
    destruct (N.ltb_spec (b2n b0) 128); [|lia]. now rewrite n2b_b2n. }
  destruct ((194 <=? b2n b0) && (b2n b0 <=? 223)) eqn:E2.
  { destruct r0 as [|b1 r1]; [discriminate|]. unfold is_cont.
    destruct ((128 <=? b2n b1) && (b2n b1 <? 192)) eqn:E3; [|discriminate].
    intros E; inversion E; subst. split; [left; lia|]. unfold utf8_char.
    set (c := _ + _). assert (128 <= c < 2048) by lia.
    destruct (N.ltb_spec c 128); [lia|]. destruct (N.ltb_spec c 2048); [|lia].
    cbn [app]. f_equal; [symmetry; apply R; lia|]. f_equal. symmetry; apply R; lia. }
  destruct ((224 <=? b2n b0) && (b2n b0 <=? 239)) eqn:E3.
  { destruct r0 as [|b1 r1]; [discriminate|]. unfold second3, in_range.
    destruct (if b2n b0 =? 224 then _ else _) eqn:E4; [|discriminate].
    destruct r1 as [|b2 r2]; [discriminate|]. unfold is_cont.
    destruct ((128 <=? b2n b2) && (b2n b2 <? 192)) eqn:E5; [|discriminate].
    intros E; inversion E; subst. 
    set (c := _ + _).
    assert (128 <= b2n b1 <= 191) by (destruct (b2n b0 =? 224), (b2n b0 =? 237); lia).
    assert (2048 <= c < 65536) by (destruct (N.eqb_spec (b2n b0) 224), (N.eqb_spec (b2n b0) 237); lia).
    split.
    { unfold scalar. destruct (N.eqb_spec (b2n b0) 224), (N.eqb_spec (b2n b0) 237); lia. }
    unfold utf8_char.
    destruct (N.ltb_spec c 128); [lia|]. destruct (N.ltb_spec c 2048); [lia|].
    destruct (N.ltb_spec c 65536); [|lia].
    cbn [app]. f_equal; [symmetry; apply R; lia|]. f_equal; [symmetry; apply R; lia|].
    f_equal. symmetry; apply R; lia. }
  destruct ((240 <=? b2n b0) && (b2n b0 <=? 244)) eqn:E4; [|discriminate].
  destruct r0 as [|b1 r1]; [discriminate|]. unfold second4, in_range.
  destruct (if b2n b0 =? 240 then _ else _) eqn:E5; [|discriminate].
  destruct r1 as [|b2 r2]; [discriminate|]. unfold is_cont.
  destruct ((128 <=? b2n b2) && (b2n b2 <? 192)) eqn:E6; [|discriminate].
  destruct r2 as [|b3 r3]; [discriminate|].
  destruct ((128 <=? b2n b3) && (b2n b3 <? 192)) eqn:E7; [|discriminate].
  intros E; inversion E; subst.
  set (c := _ + _).
  assert (128 <= b2n b1 <= 191) by (destruct (b2n b0 =? 240), (b2n b0 =? 244); lia).
  assert (65536 <= c < 1114112) by (destruct (N.eqb_spec (b2n b0) 240), (N.eqb_spec (b2n b0) 244); lia).
  split; [right; lia|].
  unfold utf8_char.
  destruct (N.ltb_spec c 128); [lia|]. destruct (N.ltb_spec c 2048); [lia|].
  destruct (N.ltb_spec c 65536); [lia|].
  cbn [app]. f_equal; [symmetry; apply R; lia|]. f_equal; [symmetry; apply R; lia|].
  f_equal; [symmetry; apply R; lia|]. f_equal. symmetry; apply R; lia.
Qed.

Lemma utf8_step_shrinks l i r : utf8_step l = Some (i, r) -> (length r < length l)%nat.
Proof.
  unfold utf8_step. intros H.
  repeat match type of H with
         | match ?l with [] => _ | _ => _ end = _ => destruct l; try discriminate
         | (if ?b then _ else _) = _ => destruct b; try discriminate
         | Some _ = Some _ => inversion H; subst; cbn; lia
         end.
Qed.

Lemma utf8_step_some l : l <> [] -> exists i r, utf8_step l = Some (i, r).
Proof.
  destruct l as [|b0 r0]; [congruence|]. intros _. unfold utf8_step.
  repeat match goal with
         | |- context [match ?l with [] => _ | _ => _ end] => destruct l
         | |- context [if ?b then _ else _] => destruct b
         end; eauto.
Qed.

Lemma utf8_items_fuel f1 f2 l :
  (length l <= f1)%nat -> (length l <= f2)%nat -> utf8_items f1 l = utf8_items f2 l.
Proof.
  revert f2 l; induction f1 as [|f1 IH]; intros f2 l H1 H2.
  - destruct l; [|cbn in H1; lia]. destruct f2; reflexivity.
  - destruct f2 as [|f2].
    + destruct l; [|cbn in H2; lia]. reflexivity.
    + cbn. destruct (utf8_step l) as [[i r]|] eqn:E; auto.
      apply utf8_step_shrinks in E. f_equal. apply IH; lia.
Qed.

Lemma utf8_decode_cons l i r : utf8_step l = Some (i, r) -> utf8_decode l = i :: utf8_decode r.
Proof.
  intros H. pose proof (utf8_step_shrinks _ _ _ H). unfold utf8_decode.
  destruct (length l) as [|n] eqn:E; [lia|]. cbn. rewrite H. f_equal. apply utf8_items_fuel; lia.
Qed.

Lemma utf8_decode_char c r : scalar c -> utf8_decode (utf8_char c ++ r) = Some c :: utf8_decode r.
Proof. intros. apply utf8_decode_cons. now apply utf8_step_char. Qed.

Lemma utf8_decode_utf8 cs : Forall scalar cs -> utf8_decode (utf8 cs) = map Some cs.
Proof.
  induction 1 as [|c cs Hc _ IH]; [reflexivity|]. unfold utf8. cbn [map concat].
  rewrite utf8_decode_char by auto. now rewrite <- IH.
Qed.

Lemma lossy_chars_utf8 cs : Forall scalar cs -> lossy_chars (utf8 cs) = cs.
Proof. intros. unfold lossy_chars. rewrite utf8_decode_utf8, map_map, map_id; auto. Qed.

Lemma utf8_decode_scalar l : Forall (fun i => match i with Some c => scalar c | None => True end) (utf8_decode l).
Proof.
  remember (length l) as n eqn:E. revert l E.
  induction n as [n IH] using lt_wf_ind; intros l E.
  destruct l as [|b l]; [constructor|].
  destruct (utf8_step_some (b :: l)) as (i & r & H); [congruence|].
  rewrite (utf8_decode_cons _ _ _ H). constructor.
  - destruct i; auto. now apply utf8_step_sound in H.
  - apply utf8_step_shrinks in H. eapply IH; eauto. lia.
Qed.

Lemma scalar_replacement : scalar REPLACEMENT.
Proof. right. unfold REPLACEMENT. lia. Qed.

Lemma lossy_chars_scalar l : Forall scalar (lossy_chars l).
Proof.
  unfold lossy_chars. apply Forall_map. eapply Forall_impl; [|apply utf8_decode_scalar].
  intros [c|]; auto using scalar_replacement.
Qed.

Lemma utf8_valid_iff l : utf8_valid l = true <-> exists cs, Forall scalar cs /\ l = utf8 cs.
Proof.
  split.
  - unfold utf8_valid. remember (length l) as n eqn:E. revert l E.
    induction n as [n IH] using lt_wf_ind; intros l E HV.
    destruct l as [|b l]; [exists []; auto|].
    destruct (utf8_step_some (b :: l)) as (i & r & H); [congruence|].
    rewrite (utf8_decode_cons _ _ _ H) in HV. cbn in HV. destruct i as [c|]; [|discriminate].
    pose proof (utf8_step_shrinks _ _ _ H) as L. apply utf8_step_sound in H as [Hc Hl].
    destruct (IH (length r)) with (l := r) as (cs & Hcs & ->); auto; [lia|].
    exists (c :: cs). rewrite Hl. auto.
  - intros (cs & Hcs & ->). unfold utf8_valid. rewrite utf8_decode_utf8 by auto.
    induction cs; auto. cbn. inversion Hcs; auto.
Qed.

Lemma utf8_valid_lossy_id l : utf8_valid l = true -> from_utf8_lossy l = l.
Proof.
  intros H. apply utf8_valid_iff in H as (cs & Hcs & ->).
  unfold from_utf8_lossy. now rewrite lossy_chars_utf8.
Qed.

Lemma from_utf8_lossy_valid l : utf8_valid (from_utf8_lossy l) = true.
Proof. apply utf8_valid_iff. exists (lossy_chars l). split; [apply lossy_chars_scalar|reflexivity]. Qed.
