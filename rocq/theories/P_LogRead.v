(** Lemmas: what can be read back from a log record (C111). *)
From Verif Require Import Base BaseFacts S_Utf8 M_Utf8 P_Utf8 S_Magnet M_Net M_IpText P_IpText M_Util M_Types M_Extensions M_Messages M_Tracker M_SockText S_SockText P_SockText M_Mse M_Log S_Log P_Save P_Log.
From Verif Require P_Json.

(** ** Numbers *)
Definition no_digit (r : bytes) : Prop := match r with [] => True | c :: _ => is_digit c = false end.
Lemma dec_app a b x y : no_digit x -> no_digit y -> dec a ++ x = dec b ++ y -> a = b /\ x = y.
Proof.
  intros X Y E. assert (R : forall n r, no_digit r -> take_run 10 (dec n ++ r) = (map (fun b => b2n b - 48) (dec n), r)).
  { intros n r H. apply take_run_app; [apply Forall2_digits, dec_digits|]. destruct r; auto. now apply digit10_none. }
  pose proof (R a x X) as A. rewrite E, (R b y Y) in A. pose proof (f_equal fst A) as A1. pose proof (f_equal snd A) as A2. cbn [fst snd] in A1, A2. split; auto.
  rewrite <- (dec_val a), <- (dec_val b), <- !run_val_digits, A1. reflexivity.
Qed.
Definition hex_end (r : bytes) : Prop := match r with [] => True | c :: _ => digit_val 16 c = None end.
Lemma hex_run n : exists vs, Forall2 (fun b v => digit_val 16 b = Some v) (hex n) vs /\ run_val 16 vs = n.
Proof.
  unfold hex. destruct (hex_go_spec (S (N.size_nat n)) n) as (vs & H1 & H2 & _); [lia|apply pow16_size|].
  exists vs. destruct (H1 []) as (ds & -> & HF). now rewrite app_nil_r.
Qed.
Lemma run_val_zeros k vs : run_val 16 (repeat 0 k ++ vs) = run_val 16 vs.
Proof. induction k; auto. Qed.
Lemma hexw_run w n : exists vs, Forall2 (fun b v => digit_val 16 b = Some v) (hexw w n) vs /\ run_val 16 vs = n.
Proof.
  destruct (hex_run n) as (vs & F & V). unfold hexw. cbv zeta. exists (repeat 0 (w - length (hex n)) ++ vs). split.
  - apply Forall2_app; auto. induction (w - length (hex n))%nat; cbn [repeat]; constructor; auto.
  - now rewrite run_val_zeros.
Qed.
Lemma hex_read n r : hex_end r -> let (vs, r') := take_run 16 (hex n ++ r) in run_val 16 vs = n /\ r' = r.
Proof. intros H. destruct (hex_run n) as (vs & F & V). rewrite (take_run_app 16 _ _ r F H). auto. Qed.
Lemma hexw_app w a b x y : hex_end x -> hex_end y -> hexw w a ++ x = hexw w b ++ y -> a = b /\ x = y.
Proof.
  intros X Y E. destruct (hexw_run w a) as (vs & F & V), (hexw_run w b) as (ws & G & W).
  pose proof (take_run_app 16 _ _ x F X) as A. rewrite E, (take_run_app 16 _ _ y G Y) in A.
  pose proof (f_equal fst A) as A1. pose proof (f_equal snd A) as A2. cbn [fst snd] in A1, A2. subst. auto.
Qed.

(** ** Quoted text *)
Definition unesc (s : bytes) : option (N * bytes) :=
  match s with
  | [] => None
  | c :: r =>
      if b2n c =? 34 then None
      else if b2n c =? 92 then
        match r with
        | [] => None
        | k :: r =>
            if b2n k =? 48 then Some (0, r) else if b2n k =? 116 then Some (9, r) else if b2n k =? 114 then Some (13, r) else if b2n k =? 110 then Some (10, r)
            else if b2n k =? 34 then Some (34, r) else if b2n k =? 92 then Some (92, r)
            else let (vs, r) := take_run 16 (tl r) in Some (run_val 16 vs, tl r)
        end
      else match utf8_step s with Some (Some c, r) => Some (c, r) | _ => None end
  end.
Section Quoted.
Variable plain : N -> bool.
Lemma unesc_u c r : unesc (bs "\u{" ++ hex c ++ bs "}" ++ r) = Some (c, r).
Proof.
  change (unesc (bs "\u{" ++ hex c ++ bs "}" ++ r)) with (let (vs, r) := take_run 16 (hex c ++ "}"%byte :: r) in Some (run_val 16 vs, tl r)).
  pose proof (hex_read c ("}"%byte :: r) eq_refl) as H. destruct (take_run 16 (hex c ++ "}"%byte :: r)) as [vs r']. destruct H as [-> ->]. reflexivity.
Qed.
Lemma utf8_char_head c b : scalar c -> In b (utf8_char c) -> b2n b = c \/ 128 <= b2n b.
Proof. intros S I. apply utf8_char_bytes in I; auto using scalar_bound. Qed.
Lemma unesc_char c r : scalar c -> c <> 34 -> c <> 92 -> unesc (utf8_char c ++ r) = Some (c, r).
Proof.
  intros S N1 N2. pose proof (utf8_char_len c) as L. pose proof (utf8_step_char c r S) as U. pose proof (utf8_char_head c) as B.
  destruct (utf8_char c) as [|b t]; [cbn in L; lia|]. specialize (B b S (or_introl eq_refl)). cbn [app] in U |- *. unfold unesc.
  destruct (N.eqb_spec (b2n b) 34); [lia|]. destruct (N.eqb_spec (b2n b) 92); [lia|]. now rewrite U.
Qed.
Lemma unesc_esc c r : scalar c -> unesc (esc_char plain c ++ r) = Some (c, r).
Proof.
  intros S. unfold esc_char.
  destruct (N.eqb_spec c 0) as [->|]; [reflexivity|]. destruct (N.eqb_spec c 9) as [->|]; [reflexivity|].
  destruct (N.eqb_spec c 13) as [->|]; [reflexivity|]. destruct (N.eqb_spec c 10) as [->|]; [reflexivity|].
  destruct (N.eqb_spec c 34) as [->|]; [reflexivity|]. destruct (N.eqb_spec c 92) as [->|]; [reflexivity|].
  assert (U : unesc ((bs "\u{" ++ hex c ++ bs "}") ++ r) = Some (c, r)). { rewrite <- !app_assoc. apply unesc_u. }
  destruct (N.ltb_spec c 128).
  - destruct ((32 <=? c) && (c <=? 126)); [|exact U]. replace [n2b c] with (utf8_char c); [now apply unesc_char|].
    unfold utf8_char. destruct (N.ltb_spec c 128); [reflexivity|lia].
  - destruct (plain c); [|exact U]. now apply unesc_char.
Qed.
Lemma esc_chars_app cs : forall ds x y, Forall scalar cs -> Forall scalar ds ->
  flat_map (esc_char plain) cs ++ dq ++ x = flat_map (esc_char plain) ds ++ dq ++ y -> cs = ds /\ x = y.
Proof.
  assert (D : forall z, unesc (dq ++ z) = None) by reflexivity.
  induction cs as [|c cs IH]; intros [|d ds] x y C S E; cbn [flat_map] in E; rewrite <- ?app_assoc in E.
  - split; auto. cbn [app] in E. now apply app_inv_head in E.
  - apply (f_equal unesc) in E. inversion S; subst. cbn [flat_map app] in E. rewrite unesc_esc, D in E by auto. discriminate.
  - apply (f_equal unesc) in E. inversion C; subst. cbn [flat_map app] in E. rewrite unesc_esc, D in E by auto. discriminate.
  - inversion C; inversion S; subst. apply (f_equal unesc) in E. rewrite !unesc_esc in E by auto.
    pose proof (f_equal (option_map fst) E) as E1. pose proof (f_equal (option_map snd) E) as E2. cbn [option_map fst snd] in E1, E2.
    injection E1 as <-. injection E2 as E2. apply IH in E2 as [-> ->]; auto.
Qed.
Lemma is_text_lossy s : is_text s -> s = utf8 (lossy_chars s).
Proof. intros (cs & S & ->). now rewrite lossy_chars_utf8. Qed.
Lemma debug_str_app s t x y : is_text s -> is_text t -> debug_str plain s ++ x = debug_str plain t ++ y -> s = t /\ x = y.
Proof.
  intros S T E. unfold debug_str in E. rewrite <- !app_assoc in E. apply app_inv_head in E.
  apply esc_chars_app in E as [E ->]; auto using lossy_chars_scalar. split; auto. rewrite (is_text_lossy s S), (is_text_lossy t T), E. reflexivity.
Qed.
End Quoted.
Definition unesc_b (s : bytes) : option (byte * bytes) :=
  match s with
  | [] => None
  | c :: r =>
      if b2n c =? 34 then None
      else if b2n c =? 92 then
        match r with
        | [] => None
        | k :: r =>
            if b2n k =? 48 then Some (n2b 0, r) else if b2n k =? 116 then Some (n2b 9, r) else if b2n k =? 114 then Some (n2b 13, r)
            else if b2n k =? 110 then Some (n2b 10, r) else if b2n k =? 34 then Some (n2b 34, r) else if b2n k =? 92 then Some (n2b 92, r)
            else let (vs, _) := take_run 16 (firstn 2 r) in Some (n2b (run_val 16 vs), skipn 2 r)
        end
      else Some (c, r)
  end.
Lemma unesc_esc_b b r : unesc_b (esc_byte b ++ r) = Some (b, r).
Proof. destruct b; reflexivity. Qed.
Lemma esc_bytes_app s : forall t x y, flat_map esc_byte s ++ dq ++ x = flat_map esc_byte t ++ dq ++ y -> s = t /\ x = y.
Proof.
  assert (D : forall z, unesc_b (dq ++ z) = None) by reflexivity.
  induction s as [|c cs IH]; intros [|d ds] x y E; cbn [flat_map] in E; rewrite <- ?app_assoc in E.
  - split; auto. cbn [app] in E. now apply app_inv_head in E.
  - apply (f_equal unesc_b) in E. cbn [flat_map app] in E. rewrite unesc_esc_b, D in E. discriminate.
  - apply (f_equal unesc_b) in E. cbn [flat_map app] in E. rewrite unesc_esc_b, D in E. discriminate.
  - apply (f_equal unesc_b) in E. rewrite !unesc_esc_b in E.
    pose proof (f_equal (option_map fst) E) as E1. pose proof (f_equal (option_map snd) E) as E2. cbn [option_map fst snd] in E1, E2.
    assert (c = d) as <- by congruence. injection E2 as E2. apply IH in E2 as [-> ->]; auto.
Qed.
Lemma debug_bytes_app s t x y : debug_bytes s ++ x = debug_bytes t ++ y -> s = t /\ x = y.
Proof.
  intros E. unfold debug_bytes in E. rewrite <- !app_assoc in E. apply app_inv_head in E. apply app_inv_head in E. now apply esc_bytes_app in E.
Qed.

(** ** Lists *)
Section Lists.
Context {A : Type} (f : A -> bytes) (good : A -> Prop).
Hypothesis f_app : forall a b x y, good a -> good b -> f a ++ x = f b ++ y -> a = b /\ x = y.
Hypothesis f_none : forall a x y, good a -> f a ++ x <> bs "<none>" ++ y.
Definition no_comma (r : bytes) : Prop := match r with [] => True | c :: _ => c <> ","%byte end.
Lemma commas_cons a l : commas (map f (a :: l)) = f a ++ flat_map (fun a => bs ", " ++ f a) l.
Proof.
  revert a. induction l as [|b l IH]; intros a; [cbn [map commas flat_map]; now rewrite app_nil_r|].
  change (commas (map f (a :: b :: l))) with (f a ++ bs ", " ++ commas (map f (b :: l))). rewrite IH. cbn [flat_map]. now rewrite <- !app_assoc.
Qed.
Lemma more_app l : forall k x y, Forall good l -> Forall good k -> no_comma x -> no_comma y ->
  flat_map (fun a => bs ", " ++ f a) l ++ x = flat_map (fun a => bs ", " ++ f a) k ++ y -> l = k /\ x = y.
Proof.
  induction l as [|a l IH]; intros [|b k] x y L K X Y E; cbn [flat_map app] in E; rewrite <- ?app_assoc in E.
  - auto.
  - subst x. contradiction X. reflexivity.
  - subst y. contradiction Y. reflexivity.
  - inversion L; inversion K; subst. apply app_inv_head in E. apply f_app in E as [-> E]; auto. apply IH in E as [-> ->]; auto.
Qed.
Lemma comma_list_app l k x y : Forall good l -> Forall good k -> no_comma x -> no_comma y ->
  comma_list (map f l) ++ x = comma_list (map f k) ++ y -> l = k /\ x = y.
Proof.
  intros L K X Y E. unfold comma_list in E. destruct l as [|a l], k as [|b k]; cbn [map] in E.
  - apply app_inv_head in E. auto.
  - change (f b :: map f k) with (map f (b :: k)) in E. rewrite commas_cons, <- app_assoc in E. symmetry in E. apply f_none in E; [contradiction|]. now inversion K.
  - change (f a :: map f l) with (map f (a :: l)) in E. rewrite commas_cons, <- app_assoc in E. apply f_none in E; [contradiction|]. now inversion L.
  - change (f a :: map f l) with (map f (a :: l)) in E. change (f b :: map f k) with (map f (b :: k)) in E. rewrite !commas_cons, <- !app_assoc in E.
    inversion L; inversion K; subst. apply f_app in E as [-> E]; auto. apply more_app in E as [-> ->]; auto.
Qed.
End Lists.

(** ** Addresses *)
Definition no_gt (b : byte) : Prop := b2n b <> 62.
Lemma gt_app a : forall b x y, Forall no_gt a -> Forall no_gt b -> a ++ bs ">" ++ x = b ++ bs ">" ++ y -> a = b /\ x = y.
Proof.
  induction a as [|c a IH]; intros [|d b] x y A B E; cbn [app] in E.
  - split; auto. cbn [app] in E. now apply app_inv_head in E.
  - exfalso. inversion B as [|? ? D _]; subst. apply D. injection E as <- _. reflexivity.
  - exfalso. inversion A as [|? ? D _]; subst. apply D. injection E as -> _. reflexivity.
  - inversion A; inversion B; subst. injection E as <- E. apply IH in E as [-> ->]; auto.
Qed.
Lemma dec_no_gt n : Forall no_gt (dec n).
Proof. eapply Forall_impl; [|apply dec_digits]. intros b H. apply is_digit_spec in H. unfold no_gt. lia. Qed.
Lemma lit_no_gt t : forallb (fun b => negb (b2n b =? 62)) t = true -> Forall no_gt t.
Proof. intros H. apply Forall_forall. intros b I. rewrite forallb_forall in H. specialize (H b I). apply negb_true_iff, N.eqb_neq in H. exact H. Qed.
Lemma hex_no_gt n : Forall no_gt (hex n).
Proof.
  destruct (hex_run n) as (vs & F & _). induction F as [|b v l vs B F IH]; constructor; auto. intros E. unfold digit_val in B. rewrite E in B. discriminate.
Qed.
Lemma join_no_gt l : Forall no_gt (join_segs l).
Proof.
  induction l as [|x l IH]; [constructor|]. cbn [join_segs]. destruct l; [apply hex_no_gt|].
  apply Forall_app. split; [apply hex_no_gt|]. apply Forall_app. split; [apply lit_no_gt; reflexivity|exact IH].
Qed.
Lemma v4_no_gt n : Forall no_gt (show_ipv4 n).
Proof.
  destruct (be_bytes4 n) as (a & b & c & d & E). unfold show_ipv4. rewrite E.
  repeat (apply Forall_app; split; [try apply dec_no_gt; try (apply lit_no_gt; reflexivity)|]). apply dec_no_gt.
Qed.
Lemma ip_no_gt i : Forall no_gt (show_ip i).
Proof.
  destruct i as [n|n]; [apply v4_no_gt|]. cbn [show_ip]. unfold show_ipv6. destruct (n / 2 ^ 32 =? 65535).
  - apply Forall_app. split; [|apply v4_no_gt]. apply lit_no_gt. reflexivity.
  - destruct (zero_run 0 (segments n) (O, O) (O, O)) as [st len]. destruct (Nat.ltb 1 len); [|apply join_no_gt].
    repeat (apply Forall_app; split); try apply join_no_gt. apply lit_no_gt. reflexivity.
Qed.
Lemma sa_no_gt a : Forall no_gt (show_sockaddr a).
Proof.
  pose proof (ip_no_gt (sa_ip a)) as I. unfold show_sockaddr. destruct (sa_ip a); cbn [show_ip] in I.
  - apply Forall_app. split; auto. constructor; [discriminate|apply dec_no_gt].
  - constructor; [discriminate|]. apply Forall_app. split; auto. constructor; [discriminate|]. constructor; [discriminate|apply dec_no_gt].
Qed.
Lemma show_peer_app a b x y : wf_sa a -> wf_sa b -> show_peer a ++ x = show_peer b ++ y -> a = b /\ x = y.
Proof.
  intros A B E. unfold show_peer in E. rewrite <- !app_assoc in E. apply app_inv_head in E. apply gt_app in E as [E ->]; auto using sa_no_gt.
  split; auto. pose proof (show_sockaddr_text a A) as T. rewrite E in T. destruct (sockaddr_text_inj _ _ _ _ _ (show_sockaddr_text b B) T). auto.
Qed.
Lemma ip_inj i j : wf_ip i -> wf_ip j -> show_ip i = show_ip j -> i = j.
Proof. intros I J E. apply parse_show_ip in I, J. rewrite E in I. congruence. Qed.
