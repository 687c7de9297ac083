(** Lemmas for C22, C38: query strings. *)
From Verif Require Import Base BaseFacts M_Net M_Types M_Utf8 M_Tracker M_Form S_Form.

Lemma hex_sym_iff b n : hex_sym b = Some n <-> hex_val b n.
Proof.
  unfold hex_sym, hex_val. pose proof (b2n_bound b). split.
  - destruct (N.leb_spec 48 (b2n b)), (N.leb_spec (b2n b) 57); cbn [andb]; try (intros [= <-]; lia);
    destruct (N.leb_spec 97 (b2n b)), (N.leb_spec (b2n b) 102); cbn [andb]; try (intros [= <-]; lia);
    destruct (N.leb_spec 65 (b2n b)), (N.leb_spec (b2n b) 70); cbn [andb]; try (intros [= <-]; lia); discriminate.
  - intros D.
    destruct (N.leb_spec 48 (b2n b)), (N.leb_spec (b2n b) 57); cbn [andb]; try (f_equal; lia);
    destruct (N.leb_spec 97 (b2n b)), (N.leb_spec (b2n b) 102); cbn [andb]; try (f_equal; lia);
    destruct (N.leb_spec 65 (b2n b)), (N.leb_spec (b2n b) 70); cbn [andb]; try (f_equal; lia); lia.
Qed.
Lemma hex_val_fun b n m : hex_val b n -> hex_val b m -> n = m.
Proof. rewrite <- !hex_sym_iff. congruence. Qed.

Lemma hex_sym_plus a : hex_sym (if Byte.eqb a "+" then " "%byte else a) = hex_sym a.
Proof. destruct (beqb_spec a "+") as [->|]; reflexivity. Qed.

Lemma form_decode_cons c r : form_decode (c :: r) =
  if Byte.eqb c "+" then " "%byte :: form_decode r
  else if Byte.eqb c "%" then
    match r with
    | a :: b :: r' =>
        match hex_sym a, hex_sym b with
        | Some h, Some l => n2b (h * 16 + l) :: form_decode r'
        | _, _ => c :: form_decode r
        end
    | _ => c :: form_decode r
    end
  else c :: form_decode r.
Proof.
  unfold form_decode. cbn [replace_plus map]. destruct (beqb_spec c "+") as [->|NP]; [reflexivity|].
  cbn [percent_decode]. destruct (beqb_spec c "%") as [->|NC]; [|reflexivity].
  destruct r as [|a [|b r']]; cbn [replace_plus map]; try reflexivity.
  rewrite !hex_sym_plus. destruct (hex_sym a); [|reflexivity]. destruct (hex_sym b); reflexivity.
Qed.

Lemma form_decode_decoded s : decoded s (form_decode s).
Proof.
  remember (length s) as n eqn:L. revert s L. induction n as [n IH] using lt_wf_ind. intros s ->.
  destruct s as [|c r]; [constructor|]. rewrite form_decode_cons.
  assert (IR : decoded r (form_decode r)) by (eapply IH; [|reflexivity]; cbn; lia).
  destruct (beqb_spec c "+") as [->|NP]; [constructor; exact IR|].
  destruct (beqb_spec c "%") as [->|NC]; [|constructor; auto].
  destruct r as [|a r]; [apply dec_lone; auto; intros (? & ? & ? & ? & ? & E & _); discriminate E|].
  destruct r as [|b r]; [apply dec_lone; auto; intros (? & ? & ? & ? & ? & E & _); discriminate E|].
  destruct (hex_sym a) as [h|] eqn:EA.
  - destruct (hex_sym b) as [l|] eqn:EB.
    + apply dec_pct; try now apply hex_sym_iff. eapply IH; [|reflexivity]. cbn; lia.
    + apply dec_lone; auto. intros (a' & b' & r' & h' & l' & [= <- <- <-] & H1 & H2). apply hex_sym_iff in H2. congruence.
  - apply dec_lone; auto. intros (a' & b' & r' & h' & l' & [= <- <- <-] & H1 & H2). apply hex_sym_iff in H1. congruence.
Qed.

Lemma decoded_fun s t : decoded s t -> forall t', decoded s t' -> t = t'.
Proof.
  induction 1 as [|s t H IH|a b h l s t HA HB H IH|s t N H IH|c s t N1 N2 H IH]; intros t' H'; inversion H'; subst; clear H';
    try (f_equal; eauto; fail); try congruence.
  - f_equal; auto. f_equal. f_equal; [f_equal|]; eauto using hex_val_fun.
  - exfalso. match goal with X : ~ _ |- _ => apply X end. do 5 eexists. split; [reflexivity|]. eauto.
  - exfalso. apply N. do 5 eexists. split; [reflexivity|]. eauto.
Qed.
Lemma decoded_iff s t : decoded s t <-> form_decode s = t.
Proof. split; [intros H; eapply decoded_fun; [apply form_decode_decoded|exact H]|intros <-; apply form_decode_decoded]. Qed.

(** ** Items *)
Lemma split_first_spec sep s : forall a b, split_first sep s = (a, b) ->
  ~ In sep a /\ match b with Some r => s = a ++ sep :: r | None => s = a end.
Proof.
  induction s as [|c s IH]; cbn; intros a b.
  - intros [= <- <-]. auto.
  - destruct (beqb_spec c sep) as [->|N]; [intros [= <- <-]; auto|].
    destruct (split_first sep s) as [a' b'] eqn:E. intros [= <- <-]. destruct (IH _ _ eq_refl) as [H1 H2].
    split; [intros [H|H]; auto|]. destruct b'; now rewrite H2.
Qed.
Lemma split_first_app sep a r : ~ In sep a -> split_first sep (a ++ sep :: r) = (a, Some r).
Proof.
  induction a as [|c a IH]; cbn; intros N.
  - now rewrite beqb_refl.
  - destruct (beqb_spec c sep) as [->|]; [tauto|]. rewrite IH by tauto. reflexivity.
Qed.
Lemma split_first_none sep a : ~ In sep a -> split_first sep a = (a, None).
Proof.
  induction a as [|c a IH]; cbn; intros N; auto.
  destruct (beqb_spec c sep) as [->|]; [tauto|]. rewrite IH by tauto. reflexivity.
Qed.

Definition read_item (seq : bytes) : bytes * bytes :=
  let (k, v) := split_first "=" seq in (form_decode k, form_decode (match v with Some v => v | None => [] end)).

Lemma item_iff s kv : item s kv <-> read_item s = kv.
Proof.
  unfold item, read_item. split.
  - intros [(a & b & -> & N & H1 & H2)|(N & H1 & H2)].
    + rewrite split_first_app by auto. apply decoded_iff in H1, H2. destruct kv; cbn [fst snd] in *; congruence.
    + rewrite split_first_none by auto. apply decoded_iff in H1. destruct kv; cbn [fst snd] in *; subst. reflexivity.
  - destruct (split_first "=" s) as [k [v|]] eqn:E; apply split_first_spec in E as [N E]; intros <-; subst.
    + left. exists k, v. cbn [fst snd]. repeat split; auto; apply form_decode_decoded.
    + right. cbn [fst snd]. repeat split; auto; apply form_decode_decoded.
Qed.

(** ** Whole queries *)
Lemma form_parse_fuel f1 : forall f2 s, (length s <= f1)%nat -> (length s <= f2)%nat -> form_parse_go f1 s = form_parse_go f2 s.
Proof.
  induction f1 as [|f1 IH]; intros f2 s L1 L2.
  - destruct s; [|cbn in L1; lia]. now destruct f2.
  - destruct f2 as [|f2]; [destruct s; [reflexivity|cbn in L2; lia]|]. cbn [form_parse_go].
    destruct s as [|c s]; [reflexivity|]. set (w := c :: s) in *.
    destruct (split_first "&" w) as [seq rest] eqn:E. apply split_first_spec in E as [_ E].
    destruct rest as [r|]; [|reflexivity].
    assert (length r < length w)%nat by (rewrite E, app_length; cbn; lia).
    now rewrite (IH f2 r) by lia.
Qed.

Lemma form_parse_split s : form_parse s =
  let (seq, rest) := split_first "&" s in
  (match seq with [] => [] | _ => [read_item seq] end) ++ match rest with Some r => form_parse r | None => [] end.
Proof.
  unfold form_parse. destruct s as [|c s]; [reflexivity|]. set (w := c :: s). cbn [length form_parse_go].
  change (match w with [] => [] | _ :: _ => let (seq, rest) := split_first "&" w in
     let tail := match rest with Some r => form_parse_go (length s) r | None => [] end in
     match seq with [] => tail | _ :: _ => let (k, v) := split_first "=" seq in (form_decode k, form_decode match v with Some v0 => v0 | None => [] end) :: tail end end = 
     let (seq, rest) := split_first "&" w in (match seq with [] => [] | _ => [read_item seq] end) ++ match rest with Some r => form_parse_go (length r) r | None => [] end).
  subst w. cbv iota. set (w := c :: s).
  destruct (split_first "&" w) as [seq rest] eqn:E. apply split_first_spec in E as [_ E].
  assert (T : match rest with Some r => form_parse_go (length s) r | None => [] end
            = match rest with Some r => form_parse_go (length r) r | None => [] end).
  { destruct rest as [r|]; [|reflexivity]. apply form_parse_fuel; [|lia].
    assert (length w = S (length s)) by reflexivity. rewrite E, app_length in H. cbn in H. lia. }
  cbv zeta. rewrite T. unfold read_item. destruct seq; [reflexivity|]. destruct (split_first "=" (b :: seq)). reflexivity.
Qed.

Lemma form_parse_amp s r : ~ In "&"%byte s -> form_parse (s ++ "&"%byte :: r) = (match s with [] => [] | _ => [read_item s] end) ++ form_parse r.
Proof. intros N. rewrite form_parse_split, split_first_app by auto. reflexivity. Qed.
Lemma form_parse_one s : ~ In "&"%byte s -> form_parse s = (match s with [] => [] | _ => [read_item s] end).
Proof. intros N. rewrite form_parse_split, split_first_none, app_nil_r by auto. reflexivity. Qed.

Lemma form_sound s l : form s l -> form_parse s = l.
Proof.
  induction 1 as [|s kv NE NA HI|r l H IH|s r kv l NE NA HI H IH].
  - reflexivity.
  - rewrite form_parse_one by auto. apply item_iff in HI. destruct s; congruence.
  - change ("&"%byte :: r) with ([] ++ "&"%byte :: r). rewrite form_parse_amp by auto. exact IH.
  - rewrite form_parse_amp by auto. apply item_iff in HI. destruct s; [congruence|]. rewrite HI, IH. reflexivity.
Qed.
Lemma form_complete s : form s (form_parse s).
Proof.
  remember (length s) as n eqn:L. revert s L. induction n as [n IH] using lt_wf_ind. intros s ->.
  rewrite form_parse_split. destruct (split_first "&" s) as [seq [r|]] eqn:E; apply split_first_spec in E as [N E]; subst.
  - assert (form r (form_parse r)) by (eapply IH; [|reflexivity]; rewrite app_length; cbn; lia).
    destruct seq as [|c seq]; [constructor; auto|]. apply form_more; auto; [discriminate|]. now apply item_iff.
  - rewrite app_nil_r. destruct seq as [|c seq]; [constructor|]. apply form_last; auto; [discriminate|]. now apply item_iff.
Qed.
Lemma form_iff s l : form s l <-> form_parse s = l.
Proof. split; [apply form_sound|intros <-; apply form_complete]. Qed.

Lemma form_parse_concat q r : form_parse (q ++ "&"%byte :: r) = form_parse q ++ form_parse r.
Proof.
  remember (length q) as n eqn:L. revert q L. induction n as [n IH] using lt_wf_ind. intros q ->.
  rewrite (form_parse_split q). destruct (split_first "&" q) as [seq [t|]] eqn:E; apply split_first_spec in E as [N E]; subst.
  - rewrite <- app_assoc. cbn [app]. rewrite form_parse_amp by auto. rewrite <- app_assoc. f_equal.
    eapply IH; [|reflexivity]. rewrite app_length; cbn; lia.
  - rewrite form_parse_amp, app_nil_r by auto. reflexivity.
Qed.

(** ** Encoding *)
Lemma hex_upper_sym n : n < 16 -> hex_sym (hex_upper n) = Some n.
Proof.
  intros H. unfold hex_upper. destruct (N.ltb_spec n 10); apply hex_sym_iff; unfold hex_val; rewrite b2n_n2b_small by lia; lia.
Qed.

Lemma serialize_byte_spec b r : form_decode (serialize_byte b ++ r) = b :: form_decode r.
Proof.
  unfold serialize_byte. destruct (beqb_spec b " ") as [->|N1]; [cbn [app]; now rewrite form_decode_cons|].
  destruct (unchanged b) eqn:U.
  - cbn [app]. rewrite form_decode_cons.
    destruct (beqb_spec b "+") as [->|N2]; [discriminate U|].
    destruct (beqb_spec b "%") as [->|N3]; [discriminate U|]. reflexivity.
  - cbn [app]. rewrite form_decode_cons. change (Byte.eqb "%" "+") with false. change (Byte.eqb "%" "%") with true. cbv iota.
    pose proof (b2n_bound b).
    rewrite !hex_upper_sym by (try apply N.mod_lt; try (apply N.div_lt_upper_bound); lia).
    f_equal. rewrite (N.mul_comm _ 16), <- N.div_mod by lia. apply n2b_b2n.
Qed.
Lemma serialize_decode_app s r : form_decode (byte_serialize s ++ r) = s ++ form_decode r.
Proof.
  induction s as [|b s IH]; [reflexivity|]. cbn [byte_serialize flat_map]. rewrite <- app_assoc, serialize_byte_spec.
  cbn [app]. f_equal. exact IH.
Qed.
Lemma serialize_decode s : form_decode (byte_serialize s) = s.
Proof. rewrite <- (app_nil_r (byte_serialize s)), serialize_decode_app. apply app_nil_r. Qed.

Definition url_safe (b : byte) : Prop :=
  is_alnum b = true \/ In b ["*"%byte; "-"%byte; "."%byte; "_"%byte; "+"%byte; "%"%byte].
Lemma hex_upper_alnum n : n < 16 -> is_alnum (hex_upper n) = true.
Proof.
  intros H. unfold hex_upper, is_alnum, is_digit, is_upper. destruct (N.ltb_spec n 10); rewrite b2n_n2b_small by lia.
  - destruct (N.leb_spec 48 (48 + n)); [|lia]. destruct (N.leb_spec (48 + n) 57); [reflexivity|lia].
  - destruct (N.leb_spec 65 (55 + n)); [|lia]. destruct (N.leb_spec (55 + n) 90); [|lia]. apply orb_true_r.
Qed.
Lemma serialize_byte_safe b : Forall url_safe (serialize_byte b).
Proof.
  unfold serialize_byte, url_safe. destruct (Byte.eqb b " "); [constructor; [cbn; tauto|constructor]|].
  destruct (unchanged b) eqn:U.
  - constructor; [|constructor]. unfold unchanged in U. rewrite !orb_true_iff, !beqb_eq in U. cbn [In].
    destruct U as [[[[U|U]|U]|U]|U]; subst; auto 10.
  - pose proof (b2n_bound b). constructor; [right; cbn; tauto|].
    constructor; [left; apply hex_upper_alnum, N.div_lt_upper_bound; lia|].
    constructor; [left; apply hex_upper_alnum, N.mod_lt; lia|constructor].
Qed.
Lemma byte_serialize_safe s : Forall url_safe (byte_serialize s).
Proof. apply Forall_flat_map, Forall_forall. intros b _. apply serialize_byte_safe. Qed.
Lemma safe_no s c : Forall url_safe s -> ~ url_safe c -> ~ In c s.
Proof. rewrite Forall_forall. intros F N H. apply N. auto. Qed.
Lemma amp_unsafe : ~ url_safe "&"%byte.
Proof. intros [H|H]; [discriminate H|]. cbn in H. repeat (destruct H as [H|H]; [discriminate H|]). exact H. Qed.
Lemma eq_unsafe : ~ url_safe "="%byte.
Proof. intros [H|H]; [discriminate H|]. cbn in H. repeat (destruct H as [H|H]; [discriminate H|]). exact H. Qed.

Lemma pair_parse k v : form_parse (byte_serialize k ++ "="%byte :: byte_serialize v) = [(k, v)].
Proof.
  rewrite form_parse_one.
  - assert (R : read_item (byte_serialize k ++ "="%byte :: byte_serialize v) = (k, v)).
    { unfold read_item. rewrite split_first_app by (apply safe_no; [apply byte_serialize_safe|apply eq_unsafe]).
      now rewrite !serialize_decode. }
    rewrite R. destruct (byte_serialize k); reflexivity.
  - intros H. apply in_app_iff in H as [H|[H|H]]; [|discriminate H|];
      revert H; (apply safe_no; [apply byte_serialize_safe|apply amp_unsafe]).
Qed.

Lemma append_pair_parse q k v : form_parse (query_text (append_pair q k v)) = form_parse (query_text q) ++ [(k, v)].
Proof.
  unfold append_pair. cbn [query_text]. fold (query_text q). destruct (query_text q) as [|c r].
  - cbn [app]. rewrite pair_parse. reflexivity.
  - rewrite <- (pair_parse k v). rewrite <- form_parse_concat. reflexivity.
Qed.
Lemma append_pair_keeps q k v : exists r, append_pair q k v = Some (query_text q ++ r).
Proof. unfold append_pair. fold (query_text q). destruct (query_text q); eexists; reflexivity. Qed.

Lemma add_bytes_eq q k v : k <> SENTINEL -> add_bytes_query_param q k v = append_pair q k v.
Proof.
  intros N. unfold add_bytes_query_param. rewrite bytes_eqb_refl.
  destruct (bytes_eqb_spec k SENTINEL); [congruence|reflexivity].
Qed.

Lemma append_round_trip q k v : form (query_text (append_pair q k v)) (form_parse (query_text q) ++ [(k, v)]).
Proof. apply form_iff, append_pair_parse. Qed.

Lemma query_values_round_trip q kvs k v : form (query_text q) kvs -> k <> SENTINEL ->
  exists q', add_bytes_query_param q k v = Some (query_text q ++ q') /\
    form (query_text (add_bytes_query_param q k v)) (kvs ++ [(k, v)]) /\
    (forall kvs', form (query_text (add_bytes_query_param q k v)) kvs' -> kvs' = kvs ++ [(k, v)]).
Proof.
  intros H N. rewrite add_bytes_eq by auto. destruct (append_pair_keeps q k v) as [r E]. exists r. split; [exact E|].
  apply form_iff in H. subst kvs. split; [apply append_round_trip|].
  intros kvs' H. apply form_iff in H. rewrite append_pair_parse in H. auto.
Qed.

Lemma form_total s : exists kvs, form s kvs /\ forall kvs', form s kvs' -> kvs' = kvs.
Proof. exists (form_parse s). split; [apply form_complete|]. intros k H. apply form_iff in H. auto. Qed.
Lemma values_safe v : decoded (byte_serialize v) v /\ Forall url_safe (byte_serialize v).
Proof. split; [apply decoded_iff, serialize_decode|apply byte_serialize_safe]. Qed.
