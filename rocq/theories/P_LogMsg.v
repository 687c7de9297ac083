(** Lemmas: log records of messages and handshakes (C111). *)
From Verif Require Import Base BaseFacts M_Utf8 S_Magnet M_Net M_IpText M_Types M_Extensions M_Messages M_Tracker M_SockText M_Log S_Log P_Log P_LogRead.

(** ** Core messages *)
Lemma ones_set s : ones s = N.of_nat (bits_set s).
Proof.
  unfold ones, bits_set. enough (G : forall n, fold_left (fun n b => n + count_ones b) s n = n + N.of_nat (length (filter (fun b : bool => b) (flat_map (fun b => map (N.testbit (b2n b)) [0; 1; 2; 3; 4; 5; 6; 7]) s)))) by (rewrite G; lia).
  induction s as [|b s IH]; intros n; [cbn; lia|]. cbn [fold_left flat_map]. rewrite IH, filter_app, app_length. unfold count_ones.
  enough (length (filter (N.testbit (b2n b)) [0; 1; 2; 3; 4; 5; 6; 7]) = length (filter (fun b : bool => b) (map (N.testbit (b2n b)) [0; 1; 2; 3; 4; 5; 6; 7]))) by lia.
  generalize [0; 1; 2; 3; 4; 5; 6; 7]. induction l as [|k l IH']; auto. cbn [map filter]. destruct (N.testbit (b2n b) k); cbn [length]; lia.
Qed.
Lemma dec_one a b : dec a = dec b -> a = b. Proof. apply dec_inj. Qed.
Lemma triple_inj i o l i' o' l' :
  bs "index " ++ dec i ++ bs ", begin " ++ dec o ++ bs ", length " ++ dec l = bs "index " ++ dec i' ++ bs ", begin " ++ dec o' ++ bs ", length " ++ dec l' ->
  i = i' /\ o = o' /\ l = l'.
Proof.
  intros E. apply app_inv_head in E. apply dec_app in E as [-> E]; try reflexivity. apply app_inv_head in E.
  apply dec_app in E as [-> E]; try reflexivity. apply app_inv_head, dec_inj in E. auto.
Qed.
Lemma blen_len (a b : bytes) : blen a = blen b -> length a = length b.
Proof. unfold blen. lia. Qed.
Lemma show_core_inj a b : show_core a = show_core b -> same_core a b.
Proof.
  destruct a, b; intros E; try (exfalso; lazy -[dec blen ones] in E; discriminate E); cbn [show_core same_core] in *; cbv zeta in E; try reflexivity;
    try (apply app_inv_head, dec_inj in E; subst; reflexivity);
    try (apply app_inv_head, triple_inj in E as (-> & -> & E); subst; reflexivity).
  - apply app_inv_head in E. apply dec_app in E as [E _]; try reflexivity. rewrite !ones_set in E. lia.
  - apply app_inv_head, triple_inj in E as (-> & -> & E). apply blen_len in E. auto.
  - apply app_inv_head in E. apply dec_app in E as [-> _]; reflexivity.
Qed.
Lemma same_core_show a b : same_core a b -> show_core a = show_core b.
Proof.
  destruct a, b; cbn [same_core]; intros E; try discriminate E; try (injection E; intros; subst; reflexivity); try reflexivity.
  - cbn [show_core]. now rewrite !ones_set, E.
  - destruct E as (-> & -> & E). cbn [show_core]. unfold blen. now rewrite E.
  - subst. reflexivity.
Qed.

(** ** Extended messages *)
Lemma show_meta_inj a b : show_meta a = show_meta b -> same_meta a b.
Proof.
  destruct a, b; intros E; try (exfalso; lazy -[dec blen] in E; discriminate E); cbn [show_meta same_meta] in *;
    try (apply app_inv_head, dec_inj in E; subst; reflexivity).
  apply app_inv_head in E. apply dec_app in E as [-> E]; try reflexivity. apply app_inv_head in E. apply dec_app in E as [-> E]; try reflexivity.
  apply app_inv_head, dec_inj, blen_len in E. auto.
Qed.
Lemma same_meta_show a b : same_meta a b -> show_meta a = show_meta b.
Proof.
  destruct a, b; cbn [same_meta]; intros E; try discriminate E; try (injection E; intros; subst; reflexivity).
  destruct E as (-> & -> & E). cbn [show_meta]. unfold blen. now rewrite E.
Qed.
Section Eh.
Variable plain : N -> bool.
Definition ip_part (i : option ip) : bytes := match i with Some i => bs "; yourip: " ++ show_ip i | None => [] end.
Definition size_part (n : option N) (i : option ip) : bytes := match n with Some n => bs "; metadata size: " ++ dec n | None => [] end ++ ip_part i.
Definition v_part (v : option bytes) n i : bytes := match v with Some v => bs "; client: " ++ debug_str plain v | None => [] end ++ size_part n i.
Definition e_part (e : option bool) v n i : bytes :=
  match e with Some true => bs "; prefers encryption" | Some false => bs "; does not prefer encryption" | None => [] end ++ v_part v n i.
Definition m_part (m : option (list (bytes * N))) : bytes :=
  match m with Some m => bs "extensions: " ++ comma_list (map (fun kc => debug_str plain (fst kc)) m) | None => bs "no extensions" end.
Lemma show_eh_parts h : show_eh plain h = bs "extended handshake: " ++ m_part (eh_m h) ++ e_part (eh_e h) (eh_v h) (eh_size h) (eh_yourip h).
Proof. reflexivity. Qed.
Definition good_ip (i : option ip) : Prop := forall x, i = Some x -> wf_ip x.
Lemma ip_part_inj i j : good_ip i -> good_ip j -> ip_part i = ip_part j -> i = j.
Proof.
  intros I J E. destruct i, j; try (lazy -[show_ip] in E; discriminate E); auto. apply app_inv_head, ip_inj in E; [congruence|auto..].
Qed.
Lemma ip_part_digit i : no_digit (ip_part i). Proof. destruct i; reflexivity || exact I. Qed.
Lemma size_part_inj n i n' i' : good_ip i -> good_ip i' -> size_part n i = size_part n' i' -> n = n' /\ i = i'.
Proof.
  intros I J E. destruct n, n'; unfold size_part in E.
  - rewrite <- !app_assoc in E. apply app_inv_head in E. apply dec_app in E as [-> E]; auto using ip_part_digit. split; auto using ip_part_inj.
  - exfalso. destruct i'; lazy -[dec show_ip] in E; discriminate E.
  - exfalso. destruct i; lazy -[dec show_ip] in E; discriminate E.
  - split; auto. apply ip_part_inj; auto.
Qed.
Definition good_text (v : option bytes) : Prop := forall x, v = Some x -> is_text x.
Lemma v_part_inj v n i v' n' i' : good_text v -> good_text v' -> good_ip i -> good_ip i' -> v_part v n i = v_part v' n' i' -> v = v' /\ n = n' /\ i = i'.
Proof.
  intros V V' I J E. destruct v, v'; unfold v_part in E.
  - rewrite <- !app_assoc in E. apply app_inv_head in E. apply debug_str_app in E as [-> E]; [|auto..]. apply size_part_inj in E as [-> ->]; auto.
  - exfalso. destruct n', i'; lazy -[dec show_ip debug_str] in E; discriminate E.
  - exfalso. destruct n, i; lazy -[dec show_ip debug_str] in E; discriminate E.
  - apply size_part_inj in E as [-> ->]; auto.
Qed.
Lemma e_part_inj e v n i e' v' n' i' : good_text v -> good_text v' -> good_ip i -> good_ip i' ->
  e_part e v n i = e_part e' v' n' i' -> e = e' /\ v = v' /\ n = n' /\ i = i'.
Proof.
  intros V V' I J E. destruct e as [[|]|], e' as [[|]|];
    try (exfalso; destruct v, n, i, v', n', i'; lazy -[dec show_ip debug_str] in E; discriminate E);
    split; auto; apply app_inv_head in E; now apply v_part_inj.
Qed.
Lemma e_part_comma e v n i : no_comma (e_part e v n i).
Proof. destruct e as [[|]|], v, n, i; cbn; first [exact I | discriminate]. Qed.
Lemma names_app l k x y : (forall a, In a l -> is_text a) -> (forall a, In a k -> is_text a) -> no_comma x -> no_comma y ->
  comma_list (map (debug_str plain) l) ++ x = comma_list (map (debug_str plain) k) ++ y -> l = k /\ x = y.
Proof.
  intros L K X Y E. apply (comma_list_app (debug_str plain) is_text) in E; auto.
  - intros a b p q A B F. apply debug_str_app in F; auto.
  - intros a p q _ F. lazy -[flat_map lossy_chars esc_char] in F. discriminate F.
  - apply Forall_forall, L.
  - apply Forall_forall, K.
Qed.
Lemma show_eh_inj a b : readable (ExtHandshake a) -> readable (ExtHandshake b) -> show_eh plain a = show_eh plain b -> same_eh a b.
Proof.
  intros (A1 & A2 & A3) (B1 & B2 & B3) E. rewrite !show_eh_parts in E. apply app_inv_head in E. unfold m_part in E. unfold same_eh.
  assert (M : option_map (map fst) (eh_m a) = option_map (map fst) (eh_m b) /\ e_part (eh_e a) (eh_v a) (eh_size a) (eh_yourip a) = e_part (eh_e b) (eh_v b) (eh_size b) (eh_yourip b)).
  { destruct (eh_m a) as [l|], (eh_m b) as [k|].
    - rewrite <- !app_assoc in E. apply app_inv_head in E. rewrite <- (map_map fst (debug_str plain) l), <- (map_map fst (debug_str plain) k) in E.
      apply names_app in E as [E1 E2]; auto using e_part_comma.
      + split; auto. cbn [option_map]. now rewrite E1.
      + intros x I. apply in_map_iff in I as ([y n] & <- & I). eapply A1; eauto.
      + intros x I. apply in_map_iff in I as ([y n] & <- & I). eapply B1; eauto.
    - exfalso. lazy -[comma_list map e_part] in E. discriminate E.
    - exfalso. lazy -[comma_list map e_part] in E. discriminate E.
    - apply app_inv_head in E. auto. }
  destruct M as [M F]. apply e_part_inj in F as (F1 & F2 & F3 & F4); auto.
Qed.
Lemma same_eh_show a b : same_eh a b -> show_eh plain a = show_eh plain b.
Proof.
  intros (E1 & E2 & E3 & E4 & E5). rewrite !show_eh_parts, E2, E3, E4, E5. do 2 f_equal.
  destruct (eh_m a) as [l|], (eh_m b) as [k|]; try discriminate E1; auto. cbn [option_map] in E1. injection E1 as E1. cbn [m_part].
  rewrite <- (map_map fst (debug_str plain) l), <- (map_map fst (debug_str plain) k), E1. reflexivity.
Qed.
Lemma show_msg_iff a b : readable a -> readable b -> (show_msg plain a = show_msg plain b <-> same_msg a b).
Proof.
  intros A B. destruct a as [a|a|a], b as [b|b|b]; cbn [show_msg same_msg].
  - split; [apply show_core_inj|apply same_core_show].
  - split; [|contradiction]. intros E. destruct a; lazy -[dec comma_list map m_part e_part blen ones debug_str show_ip] in E; discriminate E.
  - split; [|contradiction]. intros E. destruct a, b; lazy -[dec blen ones] in E; discriminate E.
  - split; [|contradiction]. intros E. destruct b; lazy -[dec comma_list map blen ones debug_str show_ip] in E; discriminate E.
  - split; [now apply show_eh_inj|apply same_eh_show].
  - split; [|contradiction]. intros E. destruct b; lazy -[dec comma_list map blen ones debug_str show_ip] in E; discriminate E.
  - split; [|contradiction]. intros E. destruct a, b; lazy -[dec blen ones] in E; discriminate E.
  - split; [|contradiction]. intros E. destruct a; lazy -[dec comma_list map blen ones debug_str show_ip] in E; discriminate E.
  - split; [apply show_meta_inj|apply same_meta_show].
Qed.
Lemma received_iff p a q b : wf_sa p -> wf_sa q -> readable a -> readable b ->
  (record_text plain (LReceived p a) = record_text plain (LReceived q b) <-> p = q /\ same_msg a b).
Proof.
  intros P Q A B. cbn [record_text]. split.
  - intros E. apply show_peer_app in E as [-> E]; auto. apply app_inv_head, show_msg_iff in E; auto.
  - intros [-> E]. apply show_msg_iff in E; auto. now rewrite E.
Qed.
End Eh.

(** ** Handshakes *)
Lemma show_ext_app a b x y : show_ext a ++ x = show_ext b ++ y -> a = b /\ x = y.
Proof. destruct a, b; intros E; try (lazy in E; discriminate E); apply app_inv_head in E; auto. Qed.
Definition item := (extension + N)%type.
Definition show_item (i : item) : bytes := match i with inl e => show_ext e | inr n => bs "Unknown(0x" ++ hexw 16 n ++ bs ")" end.
Lemma show_item_app a b x y : show_item a ++ x = show_item b ++ y -> a = b /\ x = y.
Proof.
  destruct a as [a|a], b as [b|b]; cbn [show_item]; intros E.
  - apply show_ext_app in E as [-> ->]. auto.
  - destruct a; lazy -[hexw] in E; discriminate E.
  - destruct b; lazy -[hexw] in E; discriminate E.
  - rewrite <- !app_assoc in E. apply app_inv_head in E. apply hexw_app in E as [-> E]; try reflexivity. apply app_inv_head in E. auto.
Qed.
Definition items (s : N) : list item := map inl (filter (ext_has s) all_extensions) ++ (if unknown_bits s =? 0 then [] else [inr (unknown_bits s)]).
Lemma show_exts_items s : show_exts s = comma_list (map show_item (items s)).
Proof.
  unfold show_exts, items. rewrite map_app, map_map. cbn [show_item]. now destruct (unknown_bits s =? 0).
Qed.
Lemma items_has s e : In (inl e) (items s) <-> ext_has s e = true.
Proof.
  unfold items. rewrite in_app_iff, in_map_iff. split.
  - intros [(x & [= ->] & I)|I]; [apply filter_In in I; tauto|]. destruct (unknown_bits s =? 0); [destruct I|destruct I as [[=]|[]]].
  - intros H. left. exists e. split; auto. apply filter_In. split; auto. destruct e; cbn; tauto.
Qed.
Lemma items_unknown s n : n <> 0 -> (In (inr n) (items s) <-> unknown_bits s = n).
Proof.
  intros N0. unfold items. rewrite in_app_iff, in_map_iff. destruct (N.eqb_spec (unknown_bits s) 0) as [Z|Z].
  - split; [intros [(x & [=] & _)|[]]|congruence].
  - split; [intros [(x & [=] & _)|[[= I]|[]]]; auto|]. intros <-. right. now left.
Qed.
Lemma unknown_items s t : items s = items t -> unknown_bits s = unknown_bits t.
Proof.
  intros E. destruct (N.eq_dec (unknown_bits s) 0) as [Z|Z].
  - destruct (N.eq_dec (unknown_bits t) 0) as [Y|Y]; [congruence|].
    assert (I : In (inr (unknown_bits t)) (items t)) by now apply items_unknown. rewrite <- E in I. now apply items_unknown in I.
  - assert (I : In (inr (unknown_bits s)) (items s)) by now apply items_unknown. rewrite E in I. symmetry. now apply items_unknown in I.
Qed.
Lemma ext_has_bit s e : ext_has s e = N.testbit s (ext_pos e).
Proof.
  unfold ext_has, ext_bit. rewrite N.shiftl_1_l. destruct (N.testbit s (ext_pos e)) eqn:T.
  - apply negb_true_iff, N.eqb_neq. intros Z. apply (f_equal (fun n => N.testbit n (ext_pos e))) in Z.
    rewrite N.land_spec, T, N.pow2_bits_true, N.bits_0 in Z. discriminate.
  - apply negb_false_iff, N.eqb_eq. apply N.bits_inj. intros k. rewrite N.land_spec, N.bits_0. destruct (N.eq_dec k (ext_pos e)) as [->|D].
    + now rewrite T.
    + rewrite N.pow2_bits_false by auto. apply andb_false_r.
Qed.
Lemma ldiffs_bit l : forall s k, N.testbit (fold_left (fun v e => N.ldiff v (ext_bit e)) l s) k = N.testbit s k && forallb (fun e => negb (k =? ext_pos e)) l.
Proof.
  induction l as [|e l IH]; intros s k; cbn [fold_left forallb]; [now rewrite andb_true_r|]. rewrite IH, N.ldiff_spec. unfold ext_bit.
  rewrite N.shiftl_1_l, N.pow2_bits_eqb, (N.eqb_sym (ext_pos e) k). now rewrite andb_assoc.
Qed.
Lemma items_inj s t : items s = items t -> s = t.
Proof.
  intros E. pose proof (unknown_items _ _ E) as U. apply N.bits_inj. intros k.
  destruct (forallb (fun e => negb (k =? ext_pos e)) all_extensions) eqn:F.
  - apply (f_equal (fun n => N.testbit n k)) in U. unfold unknown_bits in U. rewrite !ldiffs_bit, F, !andb_true_r in U. exact U.
  - assert (exists e, k = ext_pos e) as [e ->].
    { clear -F. revert F. generalize all_extensions. induction l as [|e l IH]; cbn [forallb]; [discriminate|]. destruct (N.eqb_spec k (ext_pos e)); eauto. }
    rewrite <- !ext_has_bit. apply eq_true_iff_eq. rewrite <- !items_has, E. tauto.
Qed.
Lemma shake_iff plain p g q h : wf_sa p -> wf_sa q ->
  (record_text plain (LShake p g) = record_text plain (LShake q h) <-> p = q /\ hs_ext g = hs_ext h /\ hs_pid g = hs_pid h).
Proof.
  intros P Q. cbn [record_text]. split.
  - intros E. apply show_peer_app in E as [-> E]; auto. apply app_inv_head in E. unfold show_shake in E. apply app_inv_head in E.
    rewrite !show_exts_items in E. apply (comma_list_app show_item (fun _ => True)) in E as [E1 E].
    + apply items_inj in E1. apply app_inv_head in E. apply debug_bytes_app in E as [-> _]. auto.
    + intros a b x y _ _. apply show_item_app.
    + intros a x y _ F. destruct a as [a|a]; [destruct a|]; lazy -[hexw] in F; discriminate F.
    + now apply Forall_forall.
    + now apply Forall_forall.
    + discriminate.
    + discriminate.
  - intros (-> & E1 & E2). unfold show_shake. now rewrite E1, E2.
Qed.
