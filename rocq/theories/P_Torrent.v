(** Facts about the piece builder. *)
From Verif Require Import Base BaseFacts S_Bencode M_Bencode P_Bencode M_Sha1 M_Torrent S_Download.

Definition sizes_of (len : N) : list N :=
  let full := repeat PIECE_LENGTH (N.to_nat (len / PIECE_LENGTH)) in
  if 0 <? len mod PIECE_LENGTH then full ++ [len mod PIECE_LENGTH] else full.

Definition pieces (len : N) : N := (len + 16383) / 16384.

Lemma sizes_length len : N.of_nat (length (sizes_of len)) = pieces len.
Proof.
  unfold sizes_of, pieces, PIECE_LENGTH. destruct (N.ltb_spec 0 (len mod 16384));
    rewrite ?app_length, repeat_length; cbn [length]; lia.
Qed.

Lemma sizes_nth len i : i < pieces len ->
  nth_error (sizes_of len) (N.to_nat i) = Some (N.min 16384 (len - 16384 * i)).
Proof.
  intros H. pose proof (sizes_length len) as HL. unfold sizes_of, pieces, PIECE_LENGTH in *.
  destruct (N.ltb_spec i (len / 16384)) as [Hi|Hi].
  - assert (E : nth_error (repeat 16384 (N.to_nat (len / 16384))) (N.to_nat i) = Some 16384).
    { rewrite (nth_error_nth' _ 0) by (rewrite repeat_length; lia). f_equal.
      apply (repeat_spec (N.to_nat (len / 16384))). apply nth_In. rewrite repeat_length. lia. }
    destruct (N.ltb_spec 0 (len mod 16384)).
    + rewrite nth_error_app1 by (rewrite repeat_length; lia). rewrite E. f_equal. lia.
    + rewrite E. f_equal. lia.
  - destruct (N.ltb_spec 0 (len mod 16384)); [|lia].
    rewrite nth_error_app2 by (rewrite repeat_length; lia).
    rewrite repeat_length. replace (N.to_nat i - N.to_nat (len / 16384))%nat with O by lia.
    cbn [nth_error]. f_equal. lia.
Qed.

Lemma builder_new_eq ih len : len <= MAX_INFO_LENGTH ->
  builder_new ih len = Ret (Ok (mkB ih [] [] (sizes_of len) 0 (pieces len))).
Proof.
  intros H. unfold builder_new. destruct (N.ltb_spec MAX_INFO_LENGTH len); [lia|].
  fold (sizes_of len). rewrite sizes_length.
  destruct (N.leb_spec (pieces len) MAX_U32) as [|H1]; [reflexivity|].
  exfalso. unfold pieces, MAX_U32, MAX_INFO_LENGTH in *. lia.
Qed.

Lemma builder_new_big ih len : MAX_INFO_LENGTH < len -> builder_new ih len = Ret (Err (TooLarge len)).
Proof. intros H. unfold builder_new. destruct (N.ltb_spec MAX_INFO_LENGTH len); [reflexivity|lia]. Qed.

(** Shape common to every state reachable from [new]. *)
Record shape (ih : bytes) (len : N) (b : builder) : Prop := {
  sh_hash : b_hash b = ih;
  sh_fed : b_fed b = b_data b;
  sh_sizes : b_sizes b = sizes_of len;
  sh_qty : b_qty b = pieces len;
  sh_next : b_next b <= pieces len }.

Lemma shape_new ih len : shape ih len (mkB ih [] [] (sizes_of len) 0 (pieces len)).
Proof. split; cbn; auto. apply N.le_0_l. Qed.

Lemma push_total ih len b p : shape ih len b ->
  exists r b', builder_push b p = Ret (r, b') /\ shape ih len b' /\
    match r with
    | Ok _ => b_next b < pieces len /\ b_next b' = b_next b + 1 /\ b_data b' = b_data b ++ p /\
              blen p = N.min 16384 (len - 16384 * b_next b)
    | Err _ => b_data b' = b_data b /\
               (b_next b < pieces len -> blen p <> N.min 16384 (len - 16384 * b_next b))
    end.
Proof.
  intros [Hh Hf Hs Hq Hn]. unfold builder_push. rewrite Hq.
  destruct (N.ltb_spec (b_next b) (pieces len)).
  - rewrite Hs, sizes_nth by auto.
    destruct (N.eqb_spec (blen p) (N.min 16384 (len - 16384 * b_next b))) as [E|E]; cbn [negb].
    + eexists _, _. split; [reflexivity|]. split; [split; cbn; auto; [now rewrite Hf|lia]|].
      cbn. auto.
    + eexists _, _. split; [reflexivity|]. split; [split; cbn; auto; lia|]. cbn. auto.
  - eexists _, _. split; [reflexivity|]. split; [split; auto|]. split; auto. lia.
Qed.

Lemma push_ok ih len b p : shape ih len b -> b_next b < pieces len ->
  blen p = N.min 16384 (len - 16384 * b_next b) ->
  exists b', builder_push b p = Ret (Ok tt, b') /\ shape ih len b' /\
    b_next b' = b_next b + 1 /\ b_data b' = b_data b ++ p.
Proof.
  intros Sb H E. destruct (push_total ih len b p Sb) as (r & b' & P & S' & R).
  destruct r as [[]|e].
  - exists b'. intuition.
  - exfalso. apply R; auto.
Qed.

Lemma build_ok b info : builder_build b = Ok info ->
  b_qty b <= b_next b /\ sha1 (b_fed b) = b_hash b /\ bencoded_dict (b_data b) /\
  info = mkTI (b_hash b) (b_data b).
Proof.
  unfold builder_build. destruct (N.ltb_spec 0 (b_qty b - b_next b)); [discriminate|].
  destruct (bytes_eqb (sha1 (b_fed b)) (b_hash b)) eqn:E; cbn [negb]; [|discriminate].
  destruct (check_bencode_dict (b_data b)) as [[]|] eqn:C; [|discriminate].
  intros H0; inversion H0; subst. apply check_bencode_dict_iff in C. apply bytes_eqb_eq in E.
  split; [lia|]. auto.
Qed.

Lemma build_complete b : b_next b = b_qty b -> sha1 (b_fed b) = b_hash b -> bencoded_dict (b_data b) ->
  builder_build b = Ok (mkTI (b_hash b) (b_data b)).
Proof.
  intros E1 E2 HD. unfold builder_build. rewrite E1, N.sub_diag. change (0 <? 0) with false. cbv iota.
  rewrite E2, bytes_eqb_refl. cbn [negb].
  replace (check_bencode_dict (b_data b)) with (@Ok dict_error unit tt); auto.
  symmetry. apply check_bencode_dict_iff. exact HD.
Qed.

Lemma push_all_total ih len ps : forall b, shape ih len b ->
  exists rs b', push_all b ps = Ret (rs, b') /\ shape ih len b' /\ length rs = length ps /\
    b_data b' = b_data b ++ concat (accepted ps rs).
Proof.
  induction ps as [|p ps IH]; intros b Sb.
  - exists [], b. cbn. rewrite app_nil_r. auto.
  - destruct (push_total ih len b p Sb) as (r & b1 & P & S1 & R).
    destruct (IH b1 S1) as (rs & b2 & P2 & S2 & HL & HD).
    exists (r :: rs), b2. cbn [push_all]. rewrite P, P2. split; [reflexivity|]. split; [auto|].
    split; [cbn; lia|]. rewrite HD. destruct r as [[]|e]; cbn [accepted concat].
    + destruct R as (_ & _ & -> & _). now rewrite <- app_assoc.
    + destruct R as (-> & _). reflexivity.
Qed.

Lemma lt_pieces len k : k < pieces len <-> 16384 * k < len.
Proof. unfold pieces. lia. Qed.
Lemma push_delivery ih len b p r b' : shape ih len b -> builder_push b p = Ret (r, b') ->
  delivery len (b_next b) p r /\ b_next b' = N.min (b_next b + 1) (pieces len).
Proof.
  intros [Hh Hf Hs Hq Hn]. unfold builder_push. rewrite Hq. unfold delivery. cbv zeta.
  destruct (N.ltb_spec (b_next b) (pieces len)) as [L|L].
  - rewrite Hs, sizes_nth by auto. apply lt_pieces in L as L'.
    destruct (N.eqb_spec (blen p) (N.min 16384 (len - 16384 * b_next b))) as [E|E]; cbn [negb]; intros X; injection X as <- <-; cbn [b_next].
    + split; [left; auto|lia].
    + split; [right; left; auto|lia].
  - intros X; injection X as <- <-. split; [|lia]. right. right. split; auto.
    destruct (N.le_gt_cases len (16384 * b_next b)) as [H|H]; auto. apply lt_pieces in H. lia.
Qed.
Lemma push_all_deliveries ih len ps : forall b rs b', shape ih len b -> push_all b ps = Ret (rs, b') ->
  (forall k p r, nth_error ps k = Some p -> nth_error rs k = Some r -> delivery len (N.min (b_next b + N.of_nat k) (pieces len)) p r) /\
  b_next b' = N.min (b_next b + N.of_nat (length ps)) (pieces len).
Proof.
  induction ps as [|p ps IH]; intros b rs b' Sb; cbn [push_all].
  - intros X; injection X as <- <-. split; [intros [|k]; discriminate|]. cbn [length]. pose proof (sh_next _ _ _ Sb). lia.
  - destruct (push_total ih len b p Sb) as (r & b1 & P & S1 & _). rewrite P. destruct (push_delivery _ _ _ _ _ _ Sb P) as [D NX].
    destruct (push_all b1 ps) as [[rs1 b2]|] eqn:E; [|discriminate]. intros X; injection X as <- <-.
    destruct (IH _ _ _ S1 E) as [DS NX']. pose proof (sh_next _ _ _ Sb). split.
    + intros [|k] q r' Hp Hr; cbn [nth_error] in Hp, Hr.
      * injection Hp as <-. injection Hr as <-. replace (N.min (b_next b + N.of_nat 0) (pieces len)) with (b_next b) by lia. exact D.
      * specialize (DS _ _ _ Hp Hr). rewrite NX in DS.
        replace (N.min (b_next b + N.of_nat (S k)) (pieces len)) with (N.min (N.min (b_next b + 1) (pieces len) + N.of_nat k) (pieces len)) by lia. exact DS.
    + rewrite NX', NX. cbn [length]. lia.
Qed.
