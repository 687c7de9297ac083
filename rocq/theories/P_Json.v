(** Lemmas for the JSON listing (C39). *)
From Verif Require Import Base BaseFacts S_Utf8 M_Utf8 P_Utf8 M_Net M_IpText P_IpText M_Tracker M_Json S_Json.

Lemma digit_hexval b v : digit_val 16 b = Some v -> hexval (b2n b) = Some v /\ 48 <= b2n b <= 102 /\ b2n b <> 92.
Proof.
  unfold digit_val, hexval. intros H.
  destruct (N.leb_spec 48 (b2n b)), (N.leb_spec (b2n b) 57); cbn [andb] in *.
  all: try (destruct (b2n b - 48 <? 16); inversion H; subst; split; [reflexivity|lia]).
  all: destruct (N.leb_spec 97 (b2n b)), (N.leb_spec (b2n b) 102); cbn [andb] in *.
  all: try (destruct (b2n b - 87 <? 16); inversion H; subst; split; [reflexivity|lia]).
  all: destruct (N.leb_spec 65 (b2n b)), (N.leb_spec (b2n b) 70); cbn [andb] in *.
  all: try (destruct (b2n b - 55 <? 16); inversion H; subst; split; [reflexivity|lia]).
  all: discriminate.
Qed.
Lemma Forall2_len {A B} (R : A -> B -> Prop) l l' : Forall2 R l l' -> length l = length l'.
Proof. induction 1; cbn [length]; auto. Qed.
Definition hexbyte (b : byte) : Prop := 48 <= b2n b <= 102 /\ b2n b <> 92.
Lemma hex_bytes n : n < 65536 -> Forall hexbyte (hex n).
Proof.
  intros H. destruct (hex_spec n H) as (vs & F & _). clear H. revert F. generalize (hex n) as l. intros l F.
  induction F as [|b v l vs D F IH]; constructor; auto. apply digit_hexval in D. apply D.
Qed.
Lemma hexval_0 : hexval (b2n "0") = Some 0. Proof. reflexivity. Qed.
Lemma hex04_spec n : n < 65536 -> exists a b c d, hex04 n = [a; b; c; d] /\ hex4 (b2n a) (b2n b) (b2n c) (b2n d) = Some n /\
  Forall hexbyte [a; b; c; d].
Proof.
  intros H. pose proof (hex_bytes n H) as HB. destruct (hex_spec n H) as (vs & F & V & L). unfold hex04. pose proof (Forall2_len _ _ _ F) as FL. destruct (hex n) as [|a [|b [|c [|d [|e l]]]]].
  6:{ cbn [length] in FL. lia. }
  all: repeat match goal with X : Forall2 _ _ _ |- _ => inversion X; subst; clear X end; cbn [length] in L; try lia.
  all: repeat match goal with X : digit_val 16 _ = Some _ |- _ => apply digit_hexval in X; destruct X as [X _] end.
  all: cbn [length repeat Nat.sub app]; do 4 eexists; (split; [reflexivity|split; [unfold hex4; rewrite ?hexval_0|]]).
  all: try (repeat match goal with X : hexval _ = Some _ |- _ => rewrite X; clear X end; f_equal; unfold run_val; cbn [fold_left]; lia).
  all: repeat (constructor; [unfold hexbyte; change (b2n "0") with 48; lia|]); auto.
Qed.

Lemma put_some c s : put c s = match s with Some (cs, r) => Some (c :: cs, r) | None => None end.
Proof. reflexivity. Qed.
Lemma encode_utf16_bound c : scalar c -> Forall (fun u => u < 65536) (encode_utf16 c).
Proof.
  unfold scalar, encode_utf16. intros H. destruct (N.ltb_spec c 65536); repeat constructor; auto.
  - assert ((c - 65536) / 1024 < 1024) by (apply N.div_lt_upper_bound; lia). lia.
  - pose proof (N.mod_lt (c - 65536) 1024). lia.
Qed.
Lemma map_bs_u : map b2n (bs "\u") = [92; 117]. Proof. reflexivity. Qed.
Lemma sb_u h1 h2 h3 h4 r : string_body (92 :: 117 :: h1 :: h2 :: h3 :: h4 :: r) =
  match hex4 h1 h2 h3 h4 with
  | None => None
  | Some u =>
      if high_surrogate u then
        match r with
        | b :: e' :: l1 :: l2 :: l3 :: l4 :: r =>
            if (b =? 92) && (e' =? 117) then
              match hex4 l1 l2 l3 l4 with
              | Some v =>
                  if low_surrogate v
                  then put (65536 + (u - 55296) * 1024 + (v - 56320)) (string_body r)
                  else None
              | None => None
              end
            else None
        | _ => None
        end
      else if low_surrogate u then None
      else put u (string_body r)
  end.
Proof. reflexivity. Qed.
Lemma string_body_u1 u r : u < 65536 -> high_surrogate u = false -> low_surrogate u = false ->
  string_body (map b2n (bs "\u" ++ hex04 u) ++ r) = put u (string_body r).
Proof.
  intros H A B. destruct (hex04_spec u H) as (a & b & c & d & -> & E & _). rewrite map_app, map_bs_u. cbn [map app]. rewrite sb_u, E, A, B. reflexivity.
Qed.
Lemma string_body_u2 u v r : u < 65536 -> v < 65536 -> high_surrogate u = true -> low_surrogate v = true ->
  string_body (map b2n ((bs "\u" ++ hex04 u) ++ (bs "\u" ++ hex04 v)) ++ r) =
  put (65536 + (u - 55296) * 1024 + (v - 56320)) (string_body r).
Proof.
  intros H H' A B. destruct (hex04_spec u H) as (a & b & c & d & -> & E & _). destruct (hex04_spec v H') as (a' & b' & c' & d' & -> & E' & _).
  rewrite !map_app, map_bs_u. cbn [map app]. rewrite sb_u, E, A. change ((92 =? 92) && (117 =? 117)) with true. cbv iota. rewrite E', B. reflexivity.
Qed.
Lemma esc1 c : c < 65536 -> concat (map (fun u => bs "\u" ++ hex04 u) (encode_utf16 c)) = bs "\u" ++ hex04 c.
Proof. intros H. unfold encode_utf16. apply N.ltb_lt in H. rewrite H. cbn [map concat]. apply app_nil_r. Qed.
Lemma esc2 c : 65536 <= c -> concat (map (fun u => bs "\u" ++ hex04 u) (encode_utf16 c)) =
  (bs "\u" ++ hex04 (55296 + (c - 65536) / 1024)) ++ (bs "\u" ++ hex04 (56320 + (c - 65536) mod 1024)).
Proof. intros H. unfold encode_utf16. apply N.ltb_ge in H. rewrite H. cbn [map concat]. rewrite app_nil_r. reflexivity. Qed.
Lemma sb_34 r : string_body (map b2n (json_char 34) ++ r) = put 34 (string_body r).
Proof. replace (map b2n (json_char 34)) with [92; 34] by reflexivity. reflexivity. Qed.
Lemma sb_92 r : string_body (map b2n (json_char 92) ++ r) = put 92 (string_body r).
Proof. replace (map b2n (json_char 92)) with [92; 92] by reflexivity. reflexivity. Qed.
Lemma sb_8 r : string_body (map b2n (json_char 8) ++ r) = put 8 (string_body r).
Proof. replace (map b2n (json_char 8)) with [92; 98] by reflexivity. reflexivity. Qed.
Lemma sb_12 r : string_body (map b2n (json_char 12) ++ r) = put 12 (string_body r).
Proof. replace (map b2n (json_char 12)) with [92; 102] by reflexivity. reflexivity. Qed.
Lemma sb_10 r : string_body (map b2n (json_char 10) ++ r) = put 10 (string_body r).
Proof. replace (map b2n (json_char 10)) with [92; 110] by reflexivity. reflexivity. Qed.
Lemma sb_13 r : string_body (map b2n (json_char 13) ++ r) = put 13 (string_body r).
Proof. replace (map b2n (json_char 13)) with [92; 114] by reflexivity. reflexivity. Qed.
Lemma sb_9 r : string_body (map b2n (json_char 9) ++ r) = put 9 (string_body r).
Proof. replace (map b2n (json_char 9)) with [92; 116] by reflexivity. reflexivity. Qed.
Lemma json_char_rest c : c <> 34 -> c <> 92 -> c <> 8 -> c <> 12 -> c <> 10 -> c <> 13 -> c <> 9 ->
  json_char c = if (32 <=? c) && (c <=? 126) then [n2b c] else concat (map (fun u => bs "\u" ++ hex04 u) (encode_utf16 c)).
Proof.
  intros H1 H2 H3 H4 H5 H6 H7. apply N.eqb_neq in H1, H2, H3, H4, H5, H6, H7. unfold json_char. rewrite H1, H2, H3, H4, H5, H6, H7. reflexivity.
Qed.
Lemma sb_raw c r : 32 <= c -> c <= 126 -> c <> 34 -> c <> 92 -> string_body (map b2n [n2b c] ++ r) = put c (string_body r).
Proof.
  intros H1 H2 H3 H4. assert (E : map b2n [n2b c] = [c]) by (cbn [map]; rewrite b2n_n2b_small by lia; reflexivity). rewrite E. cbn [app string_body].
  apply N.eqb_neq in H3, H4. rewrite H3, H4. apply N.ltb_ge in H1. rewrite H1. reflexivity.
Qed.
Lemma string_body_char c r : scalar c -> string_body (map b2n (json_char c) ++ r) = put c (string_body r).
Proof.
  intros SC.
  destruct (N.eqb_spec c 34) as [->|N1]; [exact (sb_34 r)|]. destruct (N.eqb_spec c 92) as [->|N2]; [exact (sb_92 r)|].
  destruct (N.eqb_spec c 8) as [->|N3]; [exact (sb_8 r)|]. destruct (N.eqb_spec c 12) as [->|N4]; [exact (sb_12 r)|].
  destruct (N.eqb_spec c 10) as [->|N5]; [exact (sb_10 r)|]. destruct (N.eqb_spec c 13) as [->|N6]; [exact (sb_13 r)|].
  destruct (N.eqb_spec c 9) as [->|N7]; [exact (sb_9 r)|].
  rewrite json_char_rest by auto.
  destruct (N.leb_spec 32 c), (N.leb_spec c 126); cbn [andb].
  1:{ rewrite sb_raw; auto; lia. }
  all: pose proof (encode_utf16_bound c SC) as B; destruct (N.ltb_spec c 65536); unfold scalar in SC; try lia.
  1,3: rewrite esc1 by lia; apply string_body_u1; auto; unfold high_surrogate, low_surrogate;
       destruct (N.leb_spec 55296 c), (N.ltb_spec c 56320), (N.leb_spec 56320 c), (N.ltb_spec c 57344); auto; lia.
  rewrite esc2 by lia. unfold encode_utf16 in B. destruct (N.ltb_spec c 65536); [lia|].
  pose proof (Forall_inv B) as B1. pose proof (Forall_inv (Forall_inv_tail B)) as B2. cbv beta in B1, B2.
  assert (D : (c - 65536) / 1024 < 1024) by (apply N.div_lt_upper_bound; lia). pose proof (N.mod_lt (c - 65536) 1024 ltac:(discriminate)).
  rewrite string_body_u2; auto.
  - assert (c = 65536 + (55296 + (c - 65536) / 1024 - 55296) * 1024 + (56320 + (c - 65536) mod 1024 - 56320)) as <-; [|reflexivity].
    pose proof (N.div_mod (c - 65536) 1024 ltac:(discriminate)) as DM. revert DM H1. clear.
    generalize ((c - 65536) / 1024) ((c - 65536) mod 1024). intros q m. lia.
  - revert D. clear. generalize ((c - 65536) / 1024). intros q D. unfold high_surrogate. apply andb_true_iff. rewrite N.leb_le, N.ltb_lt. lia.
  - assert (M : (c - 65536) mod 1024 < 1024) by auto. revert M. clear. generalize ((c - 65536) mod 1024). intros m M. unfold low_surrogate. apply andb_true_iff. rewrite N.leb_le, N.ltb_lt. lia.
Qed.
Lemma json_item_char i : json_item i = json_char (match i with Some c => c | None => REPLACEMENT end).
Proof. destruct i; [reflexivity|]. reflexivity. Qed.
Lemma string_body_id id r : string_body (map b2n (json_id id) ++ 34 :: r) = Some (lossy_chars id, r).
Proof.
  unfold json_id, lossy_chars. pose proof (utf8_decode_scalar id) as F. induction (utf8_decode id) as [|i l IH]; [reflexivity|].
  inversion F; subst. cbn [map concat]. rewrite json_item_char, map_app, <- app_assoc, string_body_char, IH; auto.
  destruct i; auto. apply scalar_replacement.
Qed.
Lemma string_body_str cs r : Forall scalar cs -> string_body (map b2n (write_json_str cs) ++ 34 :: r) = Some (cs, r).
Proof.
  unfold write_json_str. induction 1; [reflexivity|]. cbn [map concat]. rewrite map_app, <- app_assoc, string_body_char, IHForall; auto.
Qed.

(** Text that needs no escapes. *)
Definition plain (b : byte) : Prop := 32 <= b2n b <= 126 /\ b2n b <> 34 /\ b2n b <> 92.
Lemma string_body_plain t r : Forall plain t -> string_body (map b2n t ++ 34 :: r) = Some (map b2n t, r).
Proof.
  induction 1 as [|b t (P1 & P2 & P3) F IH]; [reflexivity|]. cbn [map app string_body]. rewrite IH.
  apply N.eqb_neq in P2, P3. rewrite P2, P3. destruct (N.ltb_spec (b2n b) 32); [lia|reflexivity].
Qed.
Lemma digit_plain b : is_digit b = true -> plain b.
Proof. intros H. apply is_digit_spec in H. unfold plain. lia. Qed.
Lemma dec_plain n : Forall plain (dec n).
Proof. eapply Forall_impl; [|apply dec_digits]. apply digit_plain. Qed.
Lemma plain_ch b : (32 <=? b2n b) && (b2n b <=? 126) && negb (b2n b =? 34) && negb (b2n b =? 92) = true -> plain b.
Proof.
  rewrite !andb_true_iff, !negb_true_iff, !N.leb_le, !N.eqb_neq. unfold plain. tauto.
Qed.
Lemma show_ipv4_plain n : Forall plain (show_ipv4 n).
Proof.
  destruct (be_bytes4 n) as (a & b & c & d & E). unfold show_ipv4. rewrite E.
  repeat (apply Forall_app; split; [try apply dec_plain; repeat constructor; apply plain_ch; reflexivity|]). apply dec_plain.
Qed.
Lemma hex_plain n : n < 65536 -> Forall plain (hex n).
Proof. intros H. eapply Forall_impl; [|apply hex_bytes, H]. unfold hexbyte, plain. intros b B. lia. Qed.
Lemma join_segs_plain l : Forall (fun g => g < 65536) l -> Forall plain (join_segs l).
Proof.
  induction 1 as [|x l H F IH]; [constructor|]. cbn [join_segs]. destruct l; [apply hex_plain, H|].
  apply Forall_app. split; [apply hex_plain, H|]. constructor; auto. apply plain_ch. reflexivity.
Qed.
Lemma Forall_firstn' {A} (P : A -> Prop) n l : Forall P l -> Forall P (firstn n l).
Proof. intros H. rewrite <- (firstn_skipn n l) in H. apply Forall_app in H. tauto. Qed.
Lemma Forall_skipn' {A} (P : A -> Prop) n l : Forall P l -> Forall P (skipn n l).
Proof. intros H. rewrite <- (firstn_skipn n l) in H. apply Forall_app in H. tauto. Qed.
Lemma show_ip_plain i : Forall plain (show_ip i).
Proof.
  destruct i as [n|n]; [apply show_ipv4_plain|]. cbn [show_ip]. unfold show_ipv6. destruct (n / 2 ^ 32 =? 65535).
  - apply Forall_app. split; [|apply show_ipv4_plain]. repeat constructor; apply plain_ch; reflexivity.
  - pose proof (segs_of_bound 8 n) as F. fold (segments n) in F. destruct (zero_run 0 (segments n) (O, O) (O, O)) as [st len].
    destruct (Nat.ltb 1 len); [|apply join_segs_plain; auto].
    apply Forall_app. split; [apply join_segs_plain, Forall_firstn', F|]. apply Forall_app. split; [|apply join_segs_plain, Forall_skipn', F].
    repeat constructor; apply plain_ch; reflexivity.
Qed.

Definition printable_byte (b : byte) : Prop := 32 <= b2n b /\ b2n b <= 126.
Lemma plain_printable t : Forall plain t -> printable t.
Proof. apply Forall_impl. unfold plain. intros; lia. Qed.
Lemma lit_printable t : forallb (fun b => (32 <=? b2n b) && (b2n b <=? 126)) t = true -> printable t.
Proof. rewrite forallb_forall. intros H. apply Forall_forall. intros b HB. specialize (H b HB). apply andb_true_iff in H. rewrite !N.leb_le in H. auto. Qed.
Lemma json_char_printable c : scalar c -> printable (json_char c).
Proof.
  intros SC. unfold json_char.
  repeat (match goal with |- printable (if ?x then _ else _) => destruct x eqn:?; [first [apply lit_printable; reflexivity|idtac]|] end).
  - apply andb_true_iff in Heqb6. rewrite !N.leb_le in Heqb6. constructor; [|constructor]. rewrite b2n_n2b_small by lia. lia.
  - pose proof (encode_utf16_bound c SC) as B. unfold printable. induction B as [|u us U B IH]; [constructor|]. cbn [map concat].
    apply Forall_app. split; auto. apply Forall_app. split; [apply lit_printable; reflexivity|].
    destruct (hex04_spec u U) as (a & b & c' & d & -> & _ & F). eapply Forall_impl; [|exact F]. unfold hexbyte. intros; lia.
Qed.
Lemma json_id_printable id : printable (json_id id).
Proof.
  unfold json_id. pose proof (utf8_decode_scalar id) as F. induction F as [|i l HI F IH]; [constructor|]. cbn [map concat].
  apply Forall_app. split; auto. rewrite json_item_char. apply json_char_printable. destruct i; auto. apply scalar_replacement.
Qed.
Lemma printable_app a b : printable a -> printable b -> printable (a ++ b).
Proof. unfold printable. rewrite Forall_app. auto. Qed.
Lemma display_printable p : printable (display_json p).
Proof.
  unfold display_json.
  repeat (apply printable_app; [first [apply plain_printable, show_ip_plain | apply plain_printable, dec_plain | idtac]|]).
  all: try (apply lit_printable; reflexivity).
  - destruct (pr_id p); [|apply lit_printable; reflexivity]. repeat (apply printable_app; [first [apply json_id_printable|apply lit_printable; reflexivity]|]).
    apply lit_printable; reflexivity.
  - destruct (pr_crypto p); apply lit_printable; reflexivity.
Qed.

(** ** Parsing the whole object *)
Lemma number_dec l : Forall (fun b => is_digit b = true) l -> forall acc r, match r with [] => True | c :: _ => digit c = false end ->
  number acc (map b2n l ++ r) = (fold_left (fun a b => a * 10 + (b2n b - 48)) l acc, r).
Proof.
  induction 1 as [|b l H F IH]; intros acc r R; cbn [map app number fold_left].
  - destruct r as [|c r]; [reflexivity|]. cbn [number]. rewrite R. reflexivity.
  - apply is_digit_spec in H. unfold digit. destruct (N.leb_spec 48 (b2n b)), (N.leb_spec (b2n b) 57); try lia. cbn [andb]. apply IH; auto.
Qed.
Lemma value_number f n r : match r with [] => True | c :: _ => digit c = false end ->
  value (S f) (32 :: map b2n (dec n) ++ r) = Some (JNum n, r).
Proof.
  intros R. cbn [value skip]. change (32 =? 32) with true. cbn [orb].
  destruct (N.eq_dec n 0) as [->|NZ]; [reflexivity|].
  destruct (dec_head n ltac:(lia)) as (b & l & E & HB).
  pose proof (dec_digits n) as D. pose proof (dec_val n) as V. unfold digits_val in V.
  pose proof (number_dec (dec n) D 0 r R) as NU. rewrite V in NU. rewrite E in *. cbn [map app skip] in *.
  destruct (N.eqb_spec (b2n b) 32); [lia|]. destruct (N.eqb_spec (b2n b) 9); [lia|]. destruct (N.eqb_spec (b2n b) 10); [lia|]. destruct (N.eqb_spec (b2n b) 13); [lia|].
  cbn [orb]. destruct (N.eqb_spec (b2n b) 34); [lia|]. destruct (N.eqb_spec (b2n b) 123); [lia|]. destruct (N.eqb_spec (b2n b) 91); [lia|]. destruct (N.eqb_spec (b2n b) 48); [lia|].
  assert (DG : digit (b2n b) = true) by (unfold digit; destruct (N.leb_spec 48 (b2n b)), (N.leb_spec (b2n b) 57); auto; lia). rewrite DG, NU. reflexivity.
Qed.
Lemma value_string f body cs r : string_body (body ++ 34 :: r) = Some (cs, r) -> value (S f) (32 :: 34 :: body ++ 34 :: r) = Some (JStr cs, r).
Proof. intros H. cbn [value skip]. change (32 =? 32) with true. cbn [orb skip N.eqb Pos.eqb]. rewrite H. reflexivity. Qed.

Lemma members_cons f (k : bytes) v body tl kvs r : Forall plain k -> value f body = Some (v, 44 :: tl) -> members f tl = Some (kvs, r) ->
  members (S f) (34 :: map b2n k ++ 34 :: 58 :: body) = Some ((map b2n k, v) :: kvs, r).
Proof.
  intros P V M. cbn [members skip]. change (34 =? 32) with false. cbn [orb N.eqb Pos.eqb]. rewrite string_body_plain by auto.
  cbn [skip N.eqb Pos.eqb orb]. rewrite V. cbn [skip N.eqb Pos.eqb orb]. rewrite M. reflexivity.
Qed.
Lemma members_last f (k : bytes) v body r : Forall plain k -> value f body = Some (v, 125 :: r) ->
  members (S f) (34 :: map b2n k ++ 34 :: 58 :: body) = Some ([(map b2n k, v)], r).
Proof.
  intros P V. cbn [members skip]. change (34 =? 32) with false. cbn [orb N.eqb Pos.eqb]. rewrite string_body_plain by auto.
  cbn [skip N.eqb Pos.eqb orb]. rewrite V. cbn [skip N.eqb Pos.eqb orb]. reflexivity.
Qed.
Lemma members_space f s : members f (32 :: s) = members f s.
Proof. destruct f; reflexivity. Qed.

Definition id_json (id : option bytes) : json := match id with Some i => JStr (lossy_chars i) | None => JNull end.
Lemma value_id f id r : value (S f) (32 :: map b2n (match id with Some i => quote ++ json_id i ++ quote | None => bs "null" end) ++ r) = Some (id_json id, r).
Proof.
  destruct id as [i|]; [|reflexivity]. unfold quote. rewrite !map_app. cbn [map app]. change (b2n (n2b 34)) with 34. rewrite <- app_assoc. cbn [app].
  apply value_string. apply string_body_id.
Qed.
Lemma display_parses p : json_parse (map b2n (display_json p)) =
  Some (JObj [(code "host", JStr (map b2n (show_ip (sa_ip (pr_addr p)))));
              (code "port", JNum (sa_port (pr_addr p)));
              (code "id", id_json (pr_id p));
              (code "requires_crypto", JBool (pr_crypto p))]).
Proof.
  unfold json_parse.
  assert (E : map b2n (display_json p) =
    123 :: 34 :: map b2n (bs "host") ++ 34 :: 58 :: 32 :: 34 :: map b2n (show_ip (sa_ip (pr_addr p))) ++ 34 :: 44 :: 32 ::
    34 :: map b2n (bs "port") ++ 34 :: 58 :: 32 :: map b2n (dec (sa_port (pr_addr p))) ++ 44 :: 32 ::
    34 :: map b2n (bs "id") ++ 34 :: 58 :: 32 :: map b2n (match pr_id p with Some i => quote ++ json_id i ++ quote | None => bs "null" end) ++ 44 :: 32 ::
    34 :: map b2n (bs "requires_crypto") ++ 34 :: 58 :: 32 :: map b2n (if pr_crypto p then bs "true" else bs "false") ++ [125]).
  { unfold display_json, quote. rewrite !map_app. change (b2n (n2b 34)) with 34. reflexivity. }
  rewrite E.
  match goal with |- context [S (length ?l)] => remember (length l) as n eqn:EN end.
  assert (G : exists f, n = S (S (S (S (S (S f)))))).
  { exists (n - 6)%nat. cbn [length] in EN. rewrite app_length in EN. cbn [length] in EN. rewrite app_length in EN. cbn [length] in EN. lia. }
  destruct G as (f & ->). clear EN.
  match goal with |- context [value (S ?g) (123 :: ?l)] => assert (M : members g l = Some ([(code "host", JStr (map b2n (show_ip (sa_ip (pr_addr p)))));
              (code "port", JNum (sa_port (pr_addr p)));
              (code "id", id_json (pr_id p));
              (code "requires_crypto", JBool (pr_crypto p))], [])) end.
  { eapply members_cons; [repeat constructor; apply plain_ch; reflexivity|apply value_string, string_body_plain, show_ip_plain|]. rewrite members_space.
    eapply members_cons; [repeat constructor; apply plain_ch; reflexivity|apply value_number; reflexivity|]. rewrite members_space.
    eapply members_cons; [repeat constructor; apply plain_ch; reflexivity|apply value_id|]. rewrite members_space.
    eapply members_last; [repeat constructor; apply plain_ch; reflexivity|]. destruct (pr_crypto p); reflexivity. }
  remember (S (S (S (S (S (S f)))))) as g. cbn [value skip]. change (123 =? 32) with false. cbn [N.eqb Pos.eqb orb skip]. rewrite M. reflexivity.
Qed.
