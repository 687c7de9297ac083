(** The modelled decoder accepts exactly the canonical encodings. *)
From Verif Require Import Base BaseFacts S_Bencode M_Bencode.

Section Ind.
  Variable P : value -> Prop.
  Hypothesis Hi : forall z, P (VInt z).
  Hypothesis Hb : forall s, P (VBytes s).
  Hypothesis Hl : forall l, Forall P l -> P (VList l).
  Hypothesis Hd : forall d, Forall (fun kv => P (snd kv)) d -> P (VDict d).
  Fixpoint value_ind' (v : value) : P v :=
    match v with
    | VInt z => Hi z
    | VBytes s => Hb s
    | VList l => Hl l ((fix go l : Forall P l :=
                          match l with [] => Forall_nil _ | x :: r => Forall_cons _ (value_ind' x) (go r) end) l)
    | VDict d => Hd d ((fix go d : Forall (fun kv => P (snd kv)) d :=
                          match d with [] => Forall_nil _ | x :: r => Forall_cons _ (value_ind' (snd x)) (go r) end) d)
    end.
End Ind.

Lemma fold_and_Forall {A} (P : A -> Prop) l :
  fold_right (fun x Q => P x /\ Q) True l <-> Forall P l.
Proof.
  induction l; cbn; split; auto; try (intros []; constructor; tauto).
  intros H; inversion H; tauto.
Qed.

Lemma fold_max_le {A} (f : A -> nat) l d :
  (fold_right (fun x m => Nat.max (f x) m) O l <= d)%nat <-> Forall (fun x => (f x <= d)%nat) l.
Proof.
  induction l; cbn; split; auto; try lia.
  - intros; constructor; [lia|apply IHl; lia].
  - intros H; inversion H; subst. apply IHl in H3. lia.
Qed.

(** ** Numbers *)
Lemma take_digits_app ds r :
  Forall (fun b => is_digit b = true) ds ->
  match r with [] => True | c :: _ => is_digit c = false end ->
  take_digits (ds ++ r) = (ds, r).
Proof.
  induction ds as [|c ds IH]; intros HF Hr; cbn.
  - destruct r; auto. cbn. now rewrite Hr.
  - inversion HF; subst. rewrite H1, IH; auto.
Qed.

Lemma take_digits_sound inp ds r :
  take_digits inp = (ds, r) ->
  inp = ds ++ r /\ Forall (fun b => is_digit b = true) ds /\
  match r with [] => True | c :: _ => is_digit c = false end.
Proof.
  revert ds r; induction inp as [|c inp IH]; intros ds r H; cbn in H.
  - inversion H; subst. auto.
  - destruct (is_digit c) eqn:E.
    + destruct (take_digits inp) as [d r'] eqn:E2. inversion H; subst.
      destruct (IH _ _ eq_refl) as (-> & HF & Hr). auto.
    + inversion H; subst. auto.
Qed.

Lemma is_digit19_spec b : is_digit19 b = true <-> 49 <= b2n b <= 57.
Proof. unfold is_digit19. lia. Qed.

Lemma take_nat_dec term n r :
  is_digit term = false -> take_nat term (dec n ++ term :: r) = Some (n, r).
Proof.
  intros Ht. destruct (N.eq_dec n 0) as [->|NZ].
  - rewrite dec_zero. cbn. now rewrite beqb_refl.
  - destruct (dec_head n) as (b & r0 & E & Hb); [lia|].
    pose proof (dec_digits n) as HF.
    pose proof (dec_val n) as HV.
    rewrite E in *. cbn [app take_nat].
    destruct (beqb_spec b "0"); [subst b; cbn in Hb; lia|].
    replace (is_digit19 b) with true by (symmetry; apply is_digit19_spec; lia).
    change (b :: r0 ++ term :: r) with ((b :: r0) ++ term :: r).
    rewrite take_digits_app by auto. now rewrite beqb_refl, HV.
Qed.

Lemma take_digits_head c inp ds r :
  is_digit c = true -> take_digits (c :: inp) = (ds, r) -> exists ds', ds = c :: ds'.
Proof.
  intros H. cbn. rewrite H. destruct (take_digits inp). intros E; inversion E; eauto.
Qed.

Lemma take_nat_sound term inp n r :
  take_nat term inp = Some (n, r) -> inp = dec n ++ term :: r.
Proof.
  unfold take_nat. destruct inp as [|c inp]; [discriminate|].
  destruct (beqb_spec c "0").
  - subst. destruct inp as [|t inp]; [discriminate|].
    destruct (beqb_spec t term); [|discriminate]. intros H; inversion H; subst. reflexivity.
  - destruct (is_digit19 c) eqn:E; [|discriminate].
    apply is_digit19_spec in E.
    destruct (take_digits (c :: inp)) as [ds r'] eqn:E2.
    destruct r' as [|t r'']; [discriminate|].
    destruct (beqb_spec t term); [|discriminate]. intros H; inversion H; subst.
    destruct (take_digits_head c inp ds (term :: r)) as [ds' ->]; auto.
    { apply is_digit_spec. lia. }
    apply take_digits_sound in E2 as (E2 & HF & _).
    inversion HF; subst. rewrite dec_canonical; auto.
Qed.

Lemma take_int_dec z r : take_int (dec_Z z ++ "e"%byte :: r) = Some (z, r).
Proof.
  destruct z as [|p|p].
  - reflexivity.
  - change (dec_Z (Z.pos p)) with (dec (N.pos p)).
    destruct (dec_head (N.pos p)) as (b & r0 & E & Hb); [lia|].
    unfold take_int. rewrite E. cbn [app].
    destruct (beqb_spec b "-"); [subst b; cbn in Hb; lia|].
    change (b :: r0 ++ "e"%byte :: r) with ((b :: r0) ++ "e"%byte :: r).
    rewrite <- E, take_nat_dec by reflexivity. reflexivity.
  - change (dec_Z (Z.neg p)) with ("-"%byte :: dec (N.pos p)).
    destruct (dec_head (N.pos p)) as (b & r0 & E & Hb); [lia|].
    cbn [app]. unfold take_int. rewrite beqb_refl, E. cbn [app].
    replace (is_digit19 b) with true by (symmetry; apply is_digit19_spec; lia).
    change (b :: r0 ++ "e"%byte :: r) with ((b :: r0) ++ "e"%byte :: r).
    rewrite <- E, take_nat_dec by reflexivity. reflexivity.
Qed.

Lemma take_int_sound inp z r : take_int inp = Some (z, r) -> inp = dec_Z z ++ "e"%byte :: r.
Proof.
  unfold take_int. destruct inp as [|c inp]; [discriminate|].
  destruct (beqb_spec c "-").
  - subst. destruct inp as [|d inp]; [discriminate|].
    destruct (is_digit19 d) eqn:E; [|discriminate].
    destruct (take_nat "e" (d :: inp)) as [[n r']|] eqn:E2; [|discriminate].
    intros H; inversion H; subst.
    apply take_nat_sound in E2. rewrite E2.
    destruct n as [|p]; [|reflexivity].
    rewrite dec_zero in E2. inversion E2; subst. discriminate.
  - destruct (take_nat "e" (c :: inp)) as [[m r']|] eqn:E2; [|discriminate].
    intros H; inversion H; subst. apply take_nat_sound in E2. rewrite E2.
    destruct m; reflexivity.
Qed.

Lemma take_string_enc s r : take_string (encode_bytes s ++ r) = Some (s, r).
Proof.
  unfold take_string, encode_bytes. rewrite <- app_assoc. cbn [app].
  rewrite take_nat_dec by reflexivity.
  unfold blen. rewrite app_length.
  destruct (N.leb_spec (N.of_nat (length s)) (N.of_nat (length s + length r))); [|lia].
  now rewrite takeN_app_exact, dropN_app_exact.
Qed.

Lemma take_string_sound inp s r : take_string inp = Some (s, r) -> inp = encode_bytes s ++ r.
Proof.
  unfold take_string. destruct (take_nat ":" inp) as [[n r']|] eqn:E; [|discriminate].
  destruct (N.leb_spec n (blen r')); [|discriminate].
  intros H0; inversion H0; subst.
  apply take_nat_sound in E. subst. unfold encode_bytes.
  assert (HL : blen (takeN n r') = n).
  { unfold blen, takeN in *. rewrite firstn_length. lia. }
  rewrite HL, <- app_assoc. cbn [app]. now rewrite takeN_dropN.
Qed.

(** ** Encodings never start with 'e' *)
Lemma encode_bytes_head s : exists c r, encode_bytes s = c :: r /\ is_digit c = true.
Proof.
  unfold encode_bytes. pose proof (dec_digits (blen s)) as HF.
  destruct (dec (blen s)) as [|c r] eqn:E; [now apply dec_nonnil in E|].
  inversion HF; subst. eexists _, _. split; [reflexivity|auto].
Qed.

Lemma is_digit_not c : is_digit c = true -> c <> "e"%byte /\ c <> "i"%byte /\ c <> "l"%byte /\ c <> "d"%byte.
Proof. intros H. repeat split; intros ->; discriminate. Qed.

Lemma encode_head v : exists c r, encode v = c :: r /\ c <> "e"%byte.
Proof.
  destruct v; cbn [encode app]; try (eexists _, _; split; [reflexivity|discriminate]).
  destruct (encode_bytes_head s) as (c & r & -> & H). apply is_digit_not in H.
  eexists _, _; split; [reflexivity|tauto].
Qed.

Lemma encode_bytes_len s : (1 <= length (encode_bytes s))%nat.
Proof. destruct (encode_bytes_head s) as (c & r & -> & _). cbn; lia. Qed.
Lemma encode_len v : (1 <= length (encode v))%nat.
Proof. destruct (encode_head v) as (c & r & -> & _). cbn; lia. Qed.

Definition pair_enc (kv : bytes * value) : bytes := encode_bytes (fst kv) ++ encode (snd kv).

(** ** Completeness *)
Lemma parse_list_complete l : 
  Forall (fun v => forall fuel d rest,
      canonical v -> (depth v <= d)%nat -> (length (encode v) + length (encode v) <= fuel)%nat ->
      parse_value fuel d (encode v ++ rest) = Some (v, rest)) l ->
  forall fuel d rest,
  Forall canonical l -> Forall (fun v => (depth v <= d)%nat) l ->
  (S (length (concat (map encode l)) + length (concat (map encode l))) <= fuel)%nat ->
  parse_list fuel d (concat (map encode l) ++ "e"%byte :: rest) = Some (l, rest).
Proof.
  induction l as [|v l IH]; intros HF fuel d rest HC HD Hf.
  - destruct fuel; [lia|]. reflexivity.
  - inversion HF as [|? ? Hv HF']; inversion HC as [|? ? Cv HC']; inversion HD as [|? ? Dv HD']; subst.
    cbn [map concat] in *. rewrite app_length in Hf. pose proof (encode_len v).
    destruct fuel as [|f]; [lia|]. rewrite <- app_assoc.
    destruct (encode_head v) as (c & r & E & Hc).
    cbn [parse_list]. rewrite E at 1. cbn [app].
    destruct (beqb_spec c "e"); [congruence|].
    rewrite Hv by (auto; lia). rewrite IH by (auto; lia). reflexivity.
Qed.

Lemma ascending_cons k ks : ascending (k :: ks) <->
  match ks with [] => True | k2 :: _ => bytes_ltb k k2 = true end /\ ascending ks.
Proof. destruct ks; cbn; tauto. Qed.

Lemma parse_pairs_complete l :
  Forall (fun kv => forall fuel d rest,
      canonical (snd kv) -> (depth (snd kv) <= d)%nat ->
      (length (encode (snd kv)) + length (encode (snd kv)) <= fuel)%nat ->
      parse_value fuel d (encode (snd kv) ++ rest) = Some (snd kv, rest)) l ->
  forall fuel d prev rest,
  ascending (map fst l) -> match l with [] => True | kv :: _ => prev_lt prev (fst kv) = true end ->
  Forall (fun kv => canonical (snd kv)) l -> Forall (fun kv => (depth (snd kv) <= d)%nat) l ->
  (S (length (concat (map pair_enc l)) + length (concat (map pair_enc l))) <= fuel)%nat ->
  parse_pairs fuel d prev (concat (map pair_enc l) ++ "e"%byte :: rest) = Some (l, rest).
Proof.
  induction l as [|[k v] l IH]; intros HF fuel d prev rest HA HP HC HD Hf.
  - destruct fuel; [lia|]. reflexivity.
  - inversion HF as [|? ? Hv HF']; inversion HC as [|? ? Cv HC']; inversion HD as [|? ? Dv HD']; subst.
    cbn [fst snd] in *.
    cbn [map concat] in *. apply ascending_cons in HA as [HA1 HA2].
    change (pair_enc (k, v)) with (encode_bytes k ++ encode v) in Hf. rewrite !app_length in Hf.
    pose proof (encode_len v). pose proof (encode_bytes_len k).
    destruct fuel as [|f]; [lia|].
    unfold pair_enc at 1. cbn [fst snd]. rewrite <- !app_assoc.
    destruct (encode_bytes_head k) as (c & r & E & Hc). apply is_digit_not in Hc.
    cbn [parse_pairs]. rewrite E at 1. cbn [app].
    destruct (beqb_spec c "e"); [tauto|].
    rewrite take_string_enc, HP.
    rewrite Hv by (auto; lia). rewrite IH; auto; [|lia].
    destruct l; cbn in *; auto.
Qed.

Lemma parse_value_complete v : forall fuel d rest,
  canonical v -> (depth v <= d)%nat -> (length (encode v) + length (encode v) <= fuel)%nat ->
  parse_value fuel d (encode v ++ rest) = Some (v, rest).
Proof.
  induction v as [z|s|l IH|l IH] using value_ind'; intros fuel d rest HC HD Hf.
  - destruct fuel as [|f]; [cbn in Hf; lia|]. cbn [encode app parse_value].
    rewrite <- app_assoc. cbn [app]. cbn [Byte.eqb]. change (Byte.eqb "i" "i") with true. cbv iota.
    rewrite take_int_dec. reflexivity.
  - pose proof (encode_bytes_len s). destruct fuel as [|f]; [cbn [encode] in Hf; lia|].
    cbn [encode parse_value].
    destruct (encode_bytes_head s) as (c & r & E & Hc). rewrite E at 1. cbn [app].
    pose proof (is_digit_not c Hc) as (? & ? & ? & ?).
    destruct (beqb_spec c "i"); [tauto|]. destruct (beqb_spec c "l"); [tauto|].
    destruct (beqb_spec c "d"); [tauto|]. rewrite Hc.
    rewrite take_string_enc. reflexivity.
  - cbn [canonical] in HC. apply fold_and_Forall in HC.
    cbn [depth] in HD. destruct d as [|d]; [lia|]. apply le_S_n in HD. apply fold_max_le in HD.
    cbn [encode] in *. cbn [app] in *. rewrite ?app_length in Hf. cbn [length] in Hf. rewrite app_length in Hf. cbn [length] in Hf.
    destruct fuel as [|f]; [lia|]. cbn [parse_value].
    change (Byte.eqb "l" "i") with false. change (Byte.eqb "l" "l") with true. cbv iota.
    rewrite <- app_assoc. cbn [app].
    rewrite parse_list_complete; auto. lia.
  - cbn [canonical] in HC. destruct HC as [HA HC]. apply (fold_and_Forall (fun kv => canonical (snd kv))) in HC.
    cbn [depth] in HD. destruct d as [|d]; [lia|]. apply le_S_n in HD.
    apply (fold_max_le (fun kv => depth (snd kv))) in HD.
    cbn [encode] in *. cbn [app] in *. fold (map pair_enc l) in *.
    change (map (fun kv => encode_bytes (fst kv) ++ encode (snd kv)) l) with (map pair_enc l) in *.
    cbn [length] in Hf. rewrite app_length in Hf. cbn [length] in Hf.
    destruct fuel as [|f]; [lia|]. cbn [parse_value].
    change (Byte.eqb "d" "i") with false. change (Byte.eqb "d" "l") with false.
    change (Byte.eqb "d" "d") with true. cbv iota.
    rewrite <- app_assoc. cbn [app].
    rewrite parse_pairs_complete; auto; [|lia]. destruct l; auto.
Qed.

(** ** Soundness *)
Lemma parse_sound_all fuel :
  (forall d inp v r, parse_value fuel d inp = Some (v, r) ->
     inp = encode v ++ r /\ canonical v /\ (depth v <= d)%nat) /\
  (forall d inp l r, parse_list fuel d inp = Some (l, r) ->
     inp = concat (map encode l) ++ "e"%byte :: r /\ Forall canonical l /\ Forall (fun v => (depth v <= d)%nat) l) /\
  (forall d prev inp l r, parse_pairs fuel d prev inp = Some (l, r) ->
     inp = concat (map pair_enc l) ++ "e"%byte :: r /\ ascending (map fst l) /\
     match l with [] => True | kv :: _ => prev_lt prev (fst kv) = true end /\
     Forall (fun kv => canonical (snd kv)) l /\ Forall (fun kv => (depth (snd kv) <= d)%nat) l).
Proof.
  induction fuel as [|f (IHv & IHl & IHp)]; [repeat split; intros; discriminate|].
  split; [|split].
  - intros d inp v r H. cbn [parse_value] in H. destruct inp as [|c inp]; [discriminate|].
    destruct (beqb_spec c "i").
    { subst. destruct (take_int inp) as [[z r']|] eqn:E; [|discriminate]. inversion H; subst.
      apply take_int_sound in E. subst. cbn. rewrite <- app_assoc. cbn. repeat split; auto; lia. }
    destruct (beqb_spec c "l").
    { subst. destruct d as [|d]; [discriminate|].
      destruct (parse_list f d inp) as [[l r']|] eqn:E; [|discriminate]. inversion H; subst.
      apply IHl in E as (-> & HC & HD). cbn [encode app]. rewrite <- app_assoc. cbn [app].
      repeat split; auto.
      - cbn. now apply fold_and_Forall.
      - cbn. apply le_n_S. now apply fold_max_le. }
    destruct (beqb_spec c "d").
    { subst. destruct d as [|d]; [discriminate|].
      destruct (parse_pairs f d None inp) as [[l r']|] eqn:E; [|discriminate]. inversion H; subst.
      apply IHp in E as (-> & HA & _ & HC & HD). cbn [encode app]. rewrite <- app_assoc. cbn [app].
      repeat split; auto.
      - now apply (fold_and_Forall (fun kv => canonical (snd kv))).
      - cbn. apply le_n_S. now apply (fold_max_le (fun kv => depth (snd kv))). }
    destruct (is_digit c); [|discriminate].
    destruct (take_string (c :: inp)) as [[s r']|] eqn:E; [|discriminate]. inversion H; subst.
    apply take_string_sound in E. rewrite E. cbn. repeat split; auto; lia.
  - intros d inp l r H. cbn [parse_list] in H. destruct inp as [|c inp]; [discriminate|].
    destruct (beqb_spec c "e").
    { subst. inversion H; subst. cbn. auto. }
    destruct (parse_value f d (c :: inp)) as [[v r1]|] eqn:E; [|discriminate].
    destruct (parse_list f d r1) as [[vs r2]|] eqn:E2; [|discriminate]. inversion H; subst.
    apply IHv in E as (E & HC & HD). apply IHl in E2 as (-> & HC2 & HD2).
    rewrite E. cbn [map concat]. rewrite <- app_assoc. auto.
  - intros d prev inp l r H. cbn [parse_pairs] in H. destruct inp as [|c inp]; [discriminate|].
    destruct (beqb_spec c "e").
    { subst. inversion H; subst. cbn. auto. }
    destruct (take_string (c :: inp)) as [[k r1]|] eqn:E; [|discriminate].
    destruct (prev_lt prev k) eqn:EP; [|discriminate].
    destruct (parse_value f d r1) as [[v r2]|] eqn:E1; [|discriminate].
    destruct (parse_pairs f d (Some k) r2) as [[kvs r3]|] eqn:E2; [|discriminate]. inversion H; subst.
    apply take_string_sound in E. apply IHv in E1 as (-> & HC & HD).
    apply IHp in E2 as (-> & HA & HP & HC2 & HD2).
    rewrite E. cbn [map concat fst]. change (pair_enc (k, v)) with (encode_bytes k ++ encode v). rewrite <- !app_assoc.
    repeat split; auto. apply ascending_cons. split; auto.
    destruct kvs as [|[k2 v2] kvs]; cbn in *; auto.
Qed.

Lemma parse_value_sound fuel d inp v r :
  parse_value fuel d inp = Some (v, r) ->
  inp = encode v ++ r /\ canonical v /\ (depth v <= d)%nat.
Proof. apply parse_sound_all. Qed.

Lemma parse_complete d v rest :
  canonical v -> (depth v <= d)%nat -> parse d (encode v ++ rest) = Some (v, rest).
Proof.
  intros. apply parse_value_complete; auto. unfold fuel_for. rewrite app_length. lia.
Qed.

Lemma parse_sound d inp v r :
  parse d inp = Some (v, r) -> inp = encode v ++ r /\ canonical v /\ (depth v <= d)%nat.
Proof. apply parse_value_sound. Qed.

Lemma parse_iff d inp v r :
  parse d inp = Some (v, r) <-> inp = encode v ++ r /\ canonical v /\ (depth v <= d)%nat.
Proof. split; [apply parse_sound|]. intros (-> & ? & ?). now apply parse_complete. Qed.

(** The canonical encoding is prefix-free and injective. *)
Lemma encode_app_inj v1 v2 r1 r2 :
  canonical v1 -> canonical v2 -> encode v1 ++ r1 = encode v2 ++ r2 -> v1 = v2 /\ r1 = r2.
Proof.
  intros C1 C2 E.
  assert (P1 : parse (Nat.max (depth v1) (depth v2)) (encode v1 ++ r1) = Some (v1, r1))
    by (apply parse_complete; auto; lia).
  rewrite E, parse_complete in P1; auto; [|lia]. inversion P1; auto.
Qed.

Lemma encode_inj v1 v2 : canonical v1 -> canonical v2 -> encode v1 = encode v2 -> v1 = v2.
Proof. intros C1 C2 E. apply (encode_app_inj v1 v2 [] []); auto. now rewrite E. Qed.

Lemma decode_tree_iff d buf v :
  decode_tree d buf = Ok v <-> buf = encode v /\ canonical v /\ (depth v <= d)%nat.
Proof.
  unfold decode_tree. split.
  - destruct buf as [|c r]; [discriminate|].
    destruct (parse d (c :: r)) as [[v' [|]]|] eqn:E; try discriminate.
    intros H; inversion H; subst. apply parse_sound in E. now rewrite app_nil_r in E.
  - intros (-> & HC & HD). pose proof (encode_len v).
    pose proof (parse_complete d v [] HC HD) as P. rewrite app_nil_r in P. rewrite P.
    destruct (encode v); [cbn in *; lia|reflexivity].
Qed.

Lemma check_bencode_dict_iff buf :
  check_bencode_dict buf = Ok tt <->
  exists d, buf = encode (VDict d) /\ canonical (VDict d) /\ (depth (VDict d) <= DEFAULT_MAX_DEPTH)%nat.
Proof.
  split.
  - unfold check_bencode_dict. destruct buf as [|c r]; [discriminate|].
    destruct (beqb_spec c "d").
    + subst. destruct (parse DEFAULT_MAX_DEPTH _) as [[v [|]]|] eqn:E; try discriminate.
      intros _. apply parse_sound in E as (E & HC & HD). rewrite app_nil_r in E.
      destruct v; cbn [encode] in E; try discriminate.
      * destruct (encode_bytes_head s) as (c & r0 & E2 & Hc). rewrite E2 in E.
        inversion E; subst. discriminate.
      * eauto.
    + repeat match goal with |- context [if ?b then _ else _] => destruct b end; try discriminate.
  - intros (d & -> & HC & HD). unfold check_bencode_dict.
    pose proof (parse_complete DEFAULT_MAX_DEPTH (VDict d) [] HC HD) as P.
    rewrite app_nil_r in P.
    cbn [encode app] in *. change (Byte.eqb "d" "d") with true. cbv iota. now rewrite P.
Qed.
