From Verif Require Import Base BaseFacts M_Types M_Template S_Template.

(** ** The index-based loop is a scan over suffixes *)
Fixpoint to_brace (s : bytes) : bytes * option bytes :=
  match s with
  | [] => ([], None)
  | c :: r => if Byte.eqb c "{" then ([], Some r) else let (u, o) := to_brace r in (c :: u, o)
  end.

Fixpoint scan (fuel off : nat) (t buf : bytes) (elems : list elem) : res template_error (list elem) :=
  match fuel with
  | O => Ok []
  | S f =>
      match to_brace t with
      | (u, None) => Ok (flush elems (buf ++ u))
      | (u, Some a) =>
          let i := (off + length u)%nat in
          let (w, r) := word_run a in
          match r with
          | [] => Err (Unmatched i)
          | c :: r' =>
              if Nat.eqb (S (length w)) 1 && Byte.eqb c "{" then
                scan f (i + 2) r' ((buf ++ u) ++ ["{"%byte]) elems
              else if Byte.eqb c "}" then
                if bytes_eqb w (bs "name") then
                  scan f (i + S (length w) + 1) r' [] (flush elems (buf ++ u) ++ [Name])
                else if bytes_eqb w (bs "hash") then
                  scan f (i + S (length w) + 1) r' [] (flush elems (buf ++ u) ++ [Hash])
                else Err (UnknownField w)
              else Err (InvalidField i)
          end
      end
  end.

Definition no_open (u : bytes) : Prop := Forall (fun c => c <> "{"%byte) u.

Lemma to_brace_spec t u o : to_brace t = (u, o) ->
  no_open u /\ t = u ++ match o with None => [] | Some a => "{"%byte :: a end /\
  forall off, brace_positions off t =
    match o with None => [] | Some a => (off + length u)%nat :: brace_positions (S (off + length u)) a end.
Proof.
  revert u o; induction t as [|c r IH]; intros u o H; cbn [to_brace] in H.
  - injection H as <- <-. repeat split. constructor.
  - destruct (beqb_spec c "{") as [->|NE].
    + injection H as <- <-. repeat split; [constructor|]. intros off. cbn [brace_positions length].
      rewrite beqb_refl, Nat.add_0_r. reflexivity.
    + destruct (to_brace r) as [u' o'] eqn:E. injection H as <- <-.
      destruct (IH _ _ eq_refl) as (H1 & H2 & H3).
      split; [constructor; auto|]. split; [cbn [app]; now rewrite <- H2|].
      intros off. cbn [brace_positions]. apply beqb_neq in NE. rewrite NE, H3. cbn [length].
      replace (off + S (length u'))%nat with (S off + length u')%nat by lia. reflexivity.
Qed.

Lemma to_brace_app u q : no_open u -> to_brace (u ++ q) = let (u', o) := to_brace q in (u ++ u', o).
Proof.
  induction 1 as [|c u Hc HF IH]; cbn [app to_brace].
  - now destruct (to_brace q).
  - apply beqb_neq in Hc. rewrite Hc, IH. now destruct (to_brace q).
Qed.

Lemma word_run_spec a w r : word_run a = (w, r) ->
  a = w ++ r /\ Forall (fun c => is_word c = true) w /\ match r with [] => True | c :: _ => is_word c = false end.
Proof.
  revert w r; induction a as [|c a IH]; intros w r H; cbn [word_run] in H.
  - injection H as <- <-. repeat split; constructor.
  - destruct (is_word c) eqn:E.
    + destruct (word_run a) as [w' r'] eqn:Ea. injection H as <- <-.
      destruct (IH _ _ eq_refl) as (-> & H2 & H3). repeat split; auto.
    + injection H as <- <-. repeat split; [constructor|exact E].
Qed.

Lemma word_run_app w r : Forall (fun c => is_word c = true) w ->
  match r with [] => True | c :: _ => is_word c = false end -> word_run (w ++ r) = (w, r).
Proof.
  induction 1 as [|c w Hc HF IH]; intros Hr; cbn [app word_run].
  - destruct r as [|c r]; [reflexivity|]. cbn [word_run]. now rewrite Hr.
  - now rewrite Hc, IH.
Qed.

Lemma positions_word w off r : Forall (fun c => is_word c = true) w ->
  brace_positions off (w ++ "}"%byte :: r) = brace_positions (off + length w + 1) r.
Proof.
  intros HF; revert off; induction HF as [|c w Hc HF IH]; intros off; cbn [app brace_positions length].
  - cbn. f_equal. lia.
  - destruct (beqb_spec c "{") as [->|_]; [discriminate|]. rewrite IH. f_equal. lia.
Qed.

Lemma skipn_pre (pre t : bytes) : skipn (length pre) (pre ++ t) = t.
Proof. now rewrite skipn_app, skipn_all, Nat.sub_diag. Qed.

Lemma loop_scan fuel : forall pre t buf elems, (length t < fuel)%nat ->
  template_loop (pre ++ t) (brace_positions (length pre) t) buf (length pre) elems =
  Ret (scan fuel (length pre) t buf elems).
Proof.
  induction fuel as [|f IH]; intros pre t buf elems L; [lia|].
  cbn [scan]. destruct (to_brace t) as [u o] eqn:E.
  apply to_brace_spec in E as (Hu & Et & Hp). rewrite Hp.
  destruct o as [a|].
  2:{ cbn [template_loop]. rewrite app_length. destruct (Nat.leb_spec (length pre) (length pre + length t)); [|lia].
      rewrite skipn_pre. rewrite app_nil_r in Et. now rewrite Et. }
  cbn [template_loop]. destruct (Nat.leb_spec (length pre) (length pre + length u)); [|lia].
  replace (length pre + length u - length pre)%nat with (length u) by lia. rewrite skipn_pre.
  assert (EU : firstn (length u) t = u).
  { rewrite Et, firstn_app, firstn_all, Nat.sub_diag. apply app_nil_r. }
  rewrite EU.
  assert (EA : skipn (S (length pre + length u)) (pre ++ t) = a).
  { rewrite Et. replace (S (length pre + length u)) with (length (pre ++ u ++ ["{"%byte]))
      by (rewrite !app_length; cbn; lia).
    replace (pre ++ u ++ "{"%byte :: a) with ((pre ++ u ++ ["{"%byte]) ++ a) by (rewrite <- !app_assoc; reflexivity).
    apply skipn_pre. }
  rewrite EA. clear EA. destruct (word_run a) as [w r] eqn:EW. apply word_run_spec in EW as (Ea & Hw & Hr).
  destruct r as [|c r']; [reflexivity|].
  assert (La : (length r' < f)%nat).
  { rewrite Et, Ea in L. rewrite !app_length in L. cbn [length] in L. rewrite app_length in L. cbn [length] in L. lia. }
  destruct (Nat.eqb (S (length w)) 1 && Byte.eqb c "{") eqn:B.
  - apply andb_true_iff in B as [B1 B2]. apply Nat.eqb_eq in B1. apply beqb_eq in B2. subst c.
    assert (w = []) by (destruct w; [auto|discriminate]). subst w. cbn [app] in Ea. subst a.
    cbn [brace_positions]. change (Byte.eqb "{" "{") with true. cbv iota.
    replace (pre ++ t) with ((pre ++ u ++ bs "{{") ++ r') by (rewrite Et, <- !app_assoc; reflexivity).
    replace (length pre + length u + 2)%nat with (length (pre ++ u ++ bs "{{")) by (rewrite !app_length; cbn; lia).
    replace (S (S (length pre + length u))) with (length (pre ++ u ++ bs "{{")) by (rewrite !app_length; cbn; lia).
    now rewrite IH.
  - destruct (beqb_spec c "}") as [->|_]; [|reflexivity].
    rewrite Ea, positions_word by auto.
    replace (pre ++ t) with ((pre ++ u ++ ["{"%byte] ++ w ++ ["}"%byte]) ++ r')
      by (rewrite Et, Ea, <- !app_assoc; cbn [app]; rewrite <- ?app_assoc; reflexivity).
    replace (S (length pre + length u) + length w + 1)%nat with (length (pre ++ u ++ ["{"%byte] ++ w ++ ["}"%byte]))
      by (rewrite !app_length; cbn; lia).
    replace (length pre + length u + S (length w) + 1)%nat with (length (pre ++ u ++ ["{"%byte] ++ w ++ ["}"%byte]))
      by (rewrite !app_length; cbn; lia).
    destruct (bytes_eqb w (bs "name")); [now rewrite IH|].
    destruct (bytes_eqb w (bs "hash")); [now rewrite IH|]. reflexivity.
Qed.

Lemma parse_scan s : parse_template s = Ret (scan (S (length s)) 0 s [] []).
Proof. exact (loop_scan (S (length s)) [] s [] [] (Nat.lt_succ_diag_r _)). Qed.

(** ** Literal text *)
Lemma replace_cons2 a b r :
  replace_close (a :: b :: r) =
  if Byte.eqb a "}" && Byte.eqb b "}" then "}"%byte :: replace_close r else a :: replace_close (b :: r).
Proof. reflexivity. Qed.

Lemma replace_other a r : a <> "}"%byte -> replace_close (a :: r) = a :: replace_close r.
Proof.
  intros H. apply beqb_neq in H. destruct r as [|b r]; [reflexivity|]. rewrite replace_cons2, H. reflexivity.
Qed.

(** [buf] is empty or ends with '{' *)
Definition ends_ok (buf : bytes) : Prop := buf = [] \/ exists b, buf = b ++ ["{"%byte].

Lemma replace_app_open n : forall b q, (length b <= n)%nat ->
  replace_close (b ++ "{"%byte :: q) = replace_close (b ++ ["{"%byte]) ++ replace_close q.
Proof.
  induction n as [|n IH]; intros b q L; destruct b as [|x [|y b]].
  - apply replace_other. discriminate.
  - cbn in L; lia.
  - cbn in L; lia.
  - apply replace_other. discriminate.
  - cbn [app]. rewrite !replace_cons2. cbn [Byte.eqb]. rewrite andb_false_r.
    rewrite replace_other by discriminate. reflexivity.
  - cbn [app]. rewrite !replace_cons2. cbn [length] in L.
    destruct (Byte.eqb x "}" && Byte.eqb y "}").
    + rewrite IH by lia. reflexivity.
    + change (y :: b ++ "{"%byte :: q) with ((y :: b) ++ "{"%byte :: q).
      change (y :: b ++ ["{"%byte]) with ((y :: b) ++ ["{"%byte]).
      rewrite IH by (cbn; lia). reflexivity.
Qed.

Lemma replace_snoc_open n : forall b, (length b <= n)%nat ->
  replace_close (b ++ ["{"%byte]) = replace_close b ++ ["{"%byte].
Proof.
  induction n as [|n IH]; intros b L; destruct b as [|x [|y b]]; try (cbn in L; lia); try reflexivity.
  - cbn [app]. rewrite replace_cons2. change (Byte.eqb "{" "}") with false. now rewrite andb_false_r.
  - cbn [app]. rewrite !replace_cons2. cbn [length] in L.
    destruct (Byte.eqb x "}" && Byte.eqb y "}").
    + rewrite IH by lia. reflexivity.
    + change (y :: b ++ ["{"%byte]) with ((y :: b) ++ ["{"%byte]). rewrite IH by (cbn; lia). reflexivity.
Qed.

Lemma replace_app buf u : ends_ok buf -> replace_close (buf ++ u) = replace_close buf ++ replace_close u.
Proof.
  intros [->|(b & ->)]; [reflexivity|]. rewrite <- app_assoc. cbn [app]. now apply (replace_app_open (length b)).
Qed.

Definition closes (rest : bytes) : Prop := match rest with [] => True | c :: _ => c = "{"%byte end.

Lemma reads_join n : forall u rest ts, (length u <= n)%nat -> no_open u -> closes rest -> reads rest ts ->
  reads (u ++ rest) (map Ch (replace_close u) ++ ts).
Proof.
  induction n as [|n IH]; intros u rest ts L Hu Hr H; destruct u as [|x [|y u]]; try (cbn in L; lia); auto.
  - inversion Hu; subst. cbn [app replace_close map]. constructor; auto.
    intros [_ (r' & ->)]. discriminate.
  - inversion Hu as [|? ? Hx Hu']; subst. inversion Hu' as [|? ? Hy Hu'']; subst. cbn [length] in L.
    cbn [app]. rewrite replace_cons2. destruct (beqb_spec x "}") as [->|NX].
    + destruct (beqb_spec y "}") as [->|NY]; cbn [andb map app].
      * constructor. apply IH; auto; lia.
      * constructor; [discriminate|intros [_ (r' & E)]; congruence|].
        apply (IH (y :: u)); auto; cbn; lia.
    + cbn [andb map app]. constructor; auto; [tauto|]. apply (IH (y :: u)); auto; cbn; lia.
Qed.

Lemma reads_split n : forall u rest ts, (length u <= n)%nat -> no_open u -> closes rest -> reads (u ++ rest) ts ->
  exists ts', ts = map Ch (replace_close u) ++ ts' /\ reads rest ts'.
Proof.
  induction n as [|n IH]; intros u rest ts L Hu Hr H; destruct u as [|x [|y u]]; try (cbn in L; lia);
    try (exists ts; split; [reflexivity|exact H]).
  - inversion Hu as [|? ? Hx _]; subst. cbn [app] in H.
    inversion H as [|r t H1 E|r t H1 E|r t H1 E|r t H1 E|c r t H1 H2 H3 E]; subst; try congruence.
    + eexists. split; [reflexivity|exact H3].
  - inversion Hu as [|? ? Hx Hu']; subst. inversion Hu' as [|? ? Hy Hu'']; subst. cbn [length] in L.
    cbn [app] in H. rewrite replace_cons2.
    inversion H as [|r t H1 E|r t H1 E|r t H1 E|r t H1 E|c r t H1 H2 H3 E]; subst; try congruence.
    + rewrite !beqb_refl. cbn [andb].
      destruct (IH u rest t) as (ts' & -> & HR); auto; [lia|]. exists ts'. split; [reflexivity|auto].
    + destruct (Byte.eqb x "}" && Byte.eqb y "}") eqn:B.
      * apply andb_true_iff in B as [B1 B2]. apply beqb_eq in B1, B2. subst. destruct H2. eauto.
      * destruct (IH (y :: u) rest t) as (ts' & -> & HR); auto; [cbn; lia|]. exists ts'. split; [reflexivity|auto].
Qed.

(** ** Scanning over a part that reads well *)
Definition out (elems : list elem) (buf : bytes) (name hash : bytes) : bytes :=
  format_template elems name hash ++ replace_close buf.

Lemma format_app a b name hash : format_template (a ++ b) name hash = format_template a name hash ++ format_template b name hash.
Proof. apply flat_map_app. Qed.

Lemma format_flush elems buf name hash : format_template (flush elems buf) name hash = out elems buf name hash.
Proof.
  unfold out, flush. destruct buf as [|b r]; [now rewrite app_nil_r|].
  rewrite format_app. f_equal. unfold format_template. cbn [flat_map]. now rewrite app_nil_r.
Qed.

Lemma expand_app a b n h : expand (a ++ b) n h = expand a n h ++ expand b n h.
Proof. apply flat_map_app. Qed.
Lemma expand_chars u n h : expand (map Ch u) n h = u.
Proof. induction u as [|c u IH]; cbn; auto. now rewrite <- IH at 2. Qed.

Lemma scan_lit fuel off u q buf elems : no_open u -> (0 < fuel)%nat ->
  scan fuel off (u ++ q) buf elems = scan fuel (off + length u) q (buf ++ u) elems.
Proof.
  intros Hu Hf. destruct fuel as [|f]; [lia|]. cbn [scan]. rewrite to_brace_app by auto.
  destruct (to_brace q) as [u' o]. rewrite !app_length, !app_assoc.
  replace (off + (length u + length u'))%nat with (off + length u + length u')%nat by lia. reflexivity.
Qed.

Lemma scan_step f off t u w c r buf elems :
  no_open u -> t = u ++ "{"%byte :: w ++ c :: r -> Forall (fun c => is_word c = true) w -> is_word c = false ->
  scan (S f) off t buf elems =
    if Nat.eqb (S (length w)) 1 && Byte.eqb c "{" then
      scan f (off + length u + 2) r ((buf ++ u) ++ ["{"%byte]) elems
    else if Byte.eqb c "}" then
      if bytes_eqb w (bs "name") then
        scan f (off + length u + S (length w) + 1) r [] (flush elems (buf ++ u) ++ [Name])
      else if bytes_eqb w (bs "hash") then
        scan f (off + length u + S (length w) + 1) r [] (flush elems (buf ++ u) ++ [Hash])
      else Err (UnknownField w)
    else Err (InvalidField (off + length u)).
Proof.
  intros Hu -> Hw Hc. cbn [scan]. rewrite to_brace_app by auto. cbn [to_brace].
  change (Byte.eqb "{" "{") with true. cbv iota. rewrite app_nil_r.
  rewrite word_run_app by auto. reflexivity.
Qed.

Lemma scan_prefix n : forall p ts q fuel off buf elems,
  (length p <= n)%nat -> reads p ts -> closes q -> ends_ok buf -> (length (p ++ q) < fuel)%nat ->
  exists fuel' buf' elems', (length q < fuel')%nat /\
    scan fuel off (p ++ q) buf elems = scan fuel' (off + length p) q buf' elems' /\
    forall name hash, out elems' buf' name hash = out elems buf name hash ++ expand ts name (show_info_hash hash).
Proof.
  induction n as [n IH] using lt_wf_ind; intros p ts q fuel off buf elems L HR Hq Hb Hf.
  destruct (to_brace p) as [u o] eqn:E. apply to_brace_spec in E as (Hu & Ep & _).
  rewrite app_length in Hf.
  destruct o as [a|].
  - (* p = u ++ "{" ++ a *)
    rewrite Ep in HR. apply (reads_split (length u)) in HR as (ts' & -> & HR); auto; [|reflexivity].
    assert (Step : forall r tks k lits,
        reads r tks -> (length r < length p)%nat ->
        (exists f buf1 elems1, (length (r ++ q) < f)%nat /\ ends_ok buf1 /\
           scan fuel off (p ++ q) buf elems = scan f (off + k) (r ++ q) buf1 elems1 /\
           forall name hash, out elems1 buf1 name hash = out elems (buf ++ u) name hash ++ lits name (show_info_hash hash)) ->
        (k + length r = length p)%nat ->
        (forall nm h, expand ts' nm h = lits nm h ++ expand tks nm h) ->
        exists fuel' buf' elems', (length q < fuel')%nat /\
          scan fuel off (p ++ q) buf elems = scan fuel' (off + length p) q buf' elems' /\
          forall name hash, out elems' buf' name hash = out elems buf name hash ++
             expand (map Ch (replace_close u) ++ ts') name (show_info_hash hash)).
    { intros r tks k lits Hr Lr (f & buf1 & elems1 & Hf1 & Hb1 & Hs & Ho) Hk Hl.
      destruct (IH (length r) ltac:(lia) r tks q f (off + k)%nat buf1 elems1) as (f' & b' & e' & G1 & G2 & G3); auto.
      exists f', b', e'. split; [auto|]. split.
      - rewrite Hs, G2. f_equal. lia.
      - intros nm h. rewrite G3, Ho, expand_app, expand_chars, Hl. unfold out.
        rewrite replace_app by auto. rewrite <- !app_assoc. reflexivity. }
    assert (Lp : length p = (length u + S (length a))%nat) by (rewrite Ep, app_length; reflexivity).
    inversion HR as [|r t H1 E|r t H1 E|r t H1 E|r t H1 E|c r t H1 H2 H3 E]; subst ts'.
    + (* "{{" *) subst a. cbn [length] in Lp.
      apply (Step r t (length u + 2)%nat (fun _ _ => ["{"%byte])); auto; try lia.
      destruct fuel as [|f]; [lia|]. exists f, ((buf ++ u) ++ ["{"%byte]), elems.
      split; [rewrite app_length; lia|]. split; [right; eauto|]. split.
      * rewrite scan_step with (u := u) (w := []) (c := "{"%byte) (r := r ++ q); auto.
        -- change (Byte.eqb "{" "{") with true. cbn [length Nat.eqb andb]. f_equal. lia.
        -- rewrite Ep, <- app_assoc. reflexivity.
      * intros. unfold out. rewrite (replace_snoc_open (length (buf ++ u))) by lia. apply app_assoc.
    + subst a.
      cbn in Lp.
      apply (Step r t (length u + 6)%nat (fun n _ => n)); auto; try lia.
      destruct fuel as [|f]; [lia|]. exists f, [], (flush elems (buf ++ u) ++ [Name]).
      split; [rewrite app_length; lia|]. split; [left; auto|]. split.
      * rewrite scan_step with (u := u) (w := bs "name") (c := "}"%byte) (r := r ++ q); auto.
        -- replace (off + (length u + 6))%nat with (off + length u + 5 + 1)%nat by lia. reflexivity.
        -- rewrite Ep, <- app_assoc. reflexivity.
        -- repeat constructor.
      * intros. unfold out at 1. rewrite format_app, format_flush. cbn [replace_close format_template flat_map].
        now rewrite !app_nil_r.
    + subst a.
      cbn in Lp.
      apply (Step r t (length u + 6)%nat (fun _ h => h)); auto; try lia.
      destruct fuel as [|f]; [lia|]. exists f, [], (flush elems (buf ++ u) ++ [Hash]).
      split; [rewrite app_length; lia|]. split; [left; auto|]. split.
      * rewrite scan_step with (u := u) (w := bs "hash") (c := "}"%byte) (r := r ++ q); auto.
        -- replace (off + (length u + 6))%nat with (off + length u + 5 + 1)%nat by lia. reflexivity.
        -- rewrite Ep, <- app_assoc. reflexivity.
        -- repeat constructor.
      * intros. unfold out at 1. rewrite format_app, format_flush. cbn [replace_close format_template flat_map].
        now rewrite !app_nil_r.
    + congruence.
  - rewrite app_nil_r in Ep. subst p.
    exists fuel, (buf ++ u), elems. split; [lia|]. split; [apply scan_lit; auto; lia|].
    intros nm h. rewrite <- (app_nil_r u) in HR.
    apply (reads_split (length u)) in HR as (ts' & -> & HR); auto; [|exact Logic.I].
    inversion HR; subst. rewrite app_nil_r, expand_chars. unfold out. rewrite replace_app by auto. apply app_assoc.
Qed.

(** ** The three outcomes *)
Lemma word_char_iff c : word_char c <-> is_word c = true.
Proof. unfold word_char, is_word. rewrite orb_true_iff, beqb_eq. tauto. Qed.
Lemma word_chars_iff w : Forall word_char w <-> Forall (fun c => is_word c = true) w.
Proof. split; apply Forall_impl; intros c; apply word_char_iff. Qed.

Lemma parse_reads s ts : reads s ts ->
  exists t, parse_template s = Ret (Ok t) /\
    forall name hash, format_template t name hash = expand ts name (show_info_hash hash).
Proof.
  intros H. rewrite parse_scan.
  destruct (scan_prefix (length s) s ts [] (S (length s)) 0 [] []) as (f & b & e & Lf & Hs & Ho);
    [lia|exact H|exact Logic.I|left; reflexivity|rewrite app_nil_r; lia|].
  rewrite app_nil_r in Hs. rewrite Hs. destruct f as [|f]; [cbn in Lf; lia|]. cbn [scan to_brace].
  rewrite app_nil_r. eexists. split; [reflexivity|]. intros. rewrite format_flush, Ho. reflexivity.
Qed.

Definition as_error (f : fault) : template_error :=
  match f with
  | FUnmatched i => Unmatched i
  | FMalformed i => InvalidField i
  | FUnknown w => UnknownField w
  end.

Lemma parse_bad s f : bad s f -> parse_template s = Ret (Err (as_error f)).
Proof.
  intros H. rewrite parse_scan. f_equal.
  destruct H as [p ts w Hp Hw|p ts w r Hp Hw N1 N2|p ts w c r Hp Hw Hc N1 N2];
    apply word_chars_iff in Hw;
    (match goal with |- scan ?fu _ (_ ++ ?q) _ _ = _ =>
       destruct (scan_prefix (length p) p ts q fu 0 [] []) as (f & b & e & Lf & Hs & _) end;
     [lia|exact Hp|reflexivity|left; reflexivity|lia|];
     rewrite Hs; destruct f as [|f]; [cbn in Lf; lia|]).
  - cbn [scan to_brace]. change (Byte.eqb "{" "{") with true. cbv iota.
    rewrite <- (app_nil_r w) at 1. rewrite word_run_app by auto. cbn. f_equal. f_equal. lia.
  - rewrite (scan_step f _ _ [] w "}" r) by first [apply Forall_nil | exact Hw | reflexivity].
    change (Byte.eqb "}" "{") with false. rewrite andb_false_r. change (Byte.eqb "}" "}") with true. cbv iota.
    apply bytes_eqb_neq in N1, N2. now rewrite N1, N2.
  - assert (Hc' : is_word c = false).
    { destruct (is_word c) eqn:E; auto. destruct Hc. now apply word_char_iff. }
    rewrite (scan_step f _ _ [] w c r) by first [apply Forall_nil | exact Hw | exact Hc' | reflexivity].
    assert (B : Nat.eqb (S (length w)) 1 && Byte.eqb c "{" = false).
    { apply not_true_iff_false. intros B. apply andb_true_iff in B as [B1 B2]. apply Nat.eqb_eq in B1.
      apply beqb_eq in B2. apply N2. split; auto. destruct w; [auto|discriminate]. }
    rewrite B. apply beqb_neq in N1. rewrite N1. cbn. f_equal. f_equal. lia.
Qed.

Definition shift (k : nat) (f : fault) : fault :=
  match f with
  | FUnmatched i => FUnmatched (k + i)
  | FMalformed i => FMalformed (k + i)
  | FUnknown w => FUnknown w
  end.

Lemma bad_shift x s f : (forall p ts, reads p ts -> exists ts', reads (x ++ p) ts') ->
  bad s f -> exists f', bad (x ++ s) f'.
Proof.
  intros Hx [p ts w Hp Hw|p ts w r Hp Hw N1 N2|p ts w c r Hp Hw Hc N1 N2];
    destruct (Hx _ _ Hp) as (ts' & Hp'); rewrite app_assoc; eexists.
  - eapply bad_unmatched; eauto.
  - eapply bad_unknown; eauto.
  - eapply bad_malformed; eauto.
Qed.

Lemma reads_or_bad n : forall s, (length s <= n)%nat -> (exists ts, reads s ts) \/ (exists f, bad s f).
Proof.
  induction n as [n IH] using lt_wf_ind; intros s L.
  destruct (to_brace s) as [u o] eqn:E. apply to_brace_spec in E as (Hu & Es & _).
  destruct o as [a|].
  2:{ left. rewrite app_nil_r in Es. subst. exists (map Ch (replace_close u) ++ []). rewrite <- (app_nil_r u) at 1.
      apply (reads_join (length u)); [lia|auto|exact Logic.I|constructor]. }
  assert (HU : reads u (map Ch (replace_close u))).
  { rewrite <- (app_nil_r u) at 1. rewrite <- (app_nil_r (map _ _)).
    apply (reads_join (length u)); [lia|auto|exact Logic.I|constructor]. }
  destruct (word_run a) as [w r] eqn:EW. apply word_run_spec in EW as (Ea & Hw & Hr).
  apply word_chars_iff in Hw.
  assert (Ls : length s = (length u + S (length w + length r))%nat).
  { rewrite Es, Ea, app_length. cbn [length]. now rewrite app_length. }
  assert (Go : forall x r', s = (u ++ x) ++ r' -> (length r' < length s)%nat ->
     (forall p ts, reads p ts -> exists t, reads (x ++ p) (t :: ts)) -> closes x -> x <> [] ->
     (exists ts, reads s ts) \/ (exists f, bad s f)).
  { intros x r' Ex Lr Hx Cx Nx.
    assert (HX : forall p ts, reads p ts -> exists ts', reads ((u ++ x) ++ p) ts').
    { intros p ts Hp. destruct (Hx p ts Hp) as (t & Ht). rewrite <- app_assoc. eexists.
      apply (reads_join (length u)); [lia|auto| |exact Ht]. destruct x; [congruence|exact Cx]. }
    destruct (IH (length r') ltac:(lia) r' (le_n _)) as [(ts & Hts)|(f & Hf)].
    - left. rewrite Ex. eauto.
    - right. rewrite Ex. eapply bad_shift; eauto. }
  destruct r as [|c r'].
  - right. rewrite Es, Ea, app_nil_r. eexists. eapply bad_unmatched; eauto.
  - cbn [length] in Ls. destruct (beqb_spec c "}") as [->|NC].
    + destruct (bytes_eq_dec w (bs "name")) as [->|N1].
      { apply (Go (bs "{name}") r'); [|lia| |reflexivity|discriminate].
        - rewrite Es, Ea, <- app_assoc. reflexivity.
        - intros p ts Hp. eexists. now apply reads_name. }
      destruct (bytes_eq_dec w (bs "hash")) as [->|N2].
      { apply (Go (bs "{hash}") r'); [|lia| |reflexivity|discriminate].
        - rewrite Es, Ea, <- app_assoc. reflexivity.
        - intros p ts Hp. eexists. now apply reads_hash. }
      right. rewrite Es, Ea. eexists. eapply bad_unknown; eauto.
    + destruct (beqb_spec c "{") as [->|NO].
      * destruct w as [|x w].
        { apply (Go (bs "{{") r'); [|lia| |reflexivity|discriminate].
          - rewrite Es, Ea, <- app_assoc. reflexivity.
          - intros p ts Hp. eexists. now apply reads_open. }
        right. rewrite Es, Ea. eexists. eapply bad_malformed; eauto; try discriminate.
        -- rewrite word_char_iff, Hr. discriminate.
        -- intros [? _]. discriminate.
      * right. rewrite Es, Ea. eexists. eapply bad_malformed; eauto.
        -- rewrite word_char_iff, Hr. discriminate.
        -- tauto.
Qed.

(** Everything together. *)
Lemma template_meaning s :
  (forall ts, reads s ts -> exists t, parse_template s = Ret (Ok t) /\
      forall name hash, format_template t name hash = expand ts name (show_info_hash hash)) /\
  (forall t, parse_template s = Ret (Ok t) -> exists ts, reads s ts) /\
  (forall f, bad s f <-> parse_template s = Ret (Err (as_error f))) /\
  parse_template s <> Panic.
Proof.
  destruct (reads_or_bad (length s) s (le_n _)) as [(ts & H)|(f & H)].
  - destruct (parse_reads s ts H) as (t & Ht & _). repeat split.
    + apply parse_reads.
    + eauto.
    + intros Hb. now apply parse_bad.
    + rewrite Ht. discriminate.
    + rewrite Ht. discriminate.
  - pose proof (parse_bad s f H) as Hb. repeat split.
    + apply parse_reads.
    + rewrite Hb. discriminate.
    + apply parse_bad.
    + rewrite Hb. intros [= E]. assert (f0 = f); [|subst; auto].
      destruct f0, f; cbn in E; congruence.
    + rewrite Hb. discriminate.
Qed.

(** ** Escaping *)
Lemma reads_escape s : reads (escape s) (map Ch s).
Proof.
  induction s as [|c s IH]; [constructor|]. cbn [escape flat_map map].
  destruct (beqb_spec c "{") as [->|N1]; [now apply reads_open|].
  destruct (beqb_spec c "}") as [->|N2]; [now apply reads_close|].
  cbn [orb app]. constructor; auto. tauto.
Qed.

Lemma escape_lossless s : exists t, parse_template (escape s) = Ret (Ok t) /\
  forall name hash, format_template t name hash = s.
Proof.
  destruct (parse_reads _ _ (reads_escape s)) as (t & H & F). exists t. split; auto.
  intros. now rewrite F, expand_chars.
Qed.

(** ** Distinct hashes give distinct paths *)
Fixpoint names_in (ts : list tok) : nat :=
  match ts with [] => O | TName :: r => S (names_in r) | _ :: r => names_in r end.

Lemma expand_len ts n h :
  (length (expand ts n h) + names_in ts * 0 = length (expand ts [] h) + names_in ts * length n)%nat.
Proof.
  induction ts as [|t ts IH]; cbn; auto. rewrite !app_length. unfold expand in IH.
  destruct t; cbn [length names_in]; lia.
Qed.

Lemma expand_len_hash ts n h1 h2 : length h1 = length h2 -> length (expand ts n h1) = length (expand ts n h2).
Proof.
  intros L. induction ts as [|t ts IH]; cbn; auto. rewrite !app_length. unfold expand in IH.
  destruct t; cbn [length]; lia.
Qed.

Lemma app_eq_len {A} (a b c d : list A) : length a = length b -> a ++ c = b ++ d -> a = b /\ c = d.
Proof.
  revert b; induction a as [|x a IH]; intros [|y b] L E; cbn in *; try lia; auto.
  injection E as -> E. destruct (IH b ltac:(lia) E) as [-> ->]. auto.
Qed.

Lemma expand_same_pos ts n1 n2 h1 h2 : In THash ts -> length h1 = length h2 ->
  (names_in ts = O \/ length n1 = length n2) -> expand ts n1 h1 = expand ts n2 h2 -> h1 = h2.
Proof.
  induction ts as [|t ts IH]; intros HI LH LN E; [destruct HI|].
  cbn [expand flat_map] in E. fold (expand ts n1 h1) (expand ts n2 h2) in E.
  destruct t as [c| |]; cbn [names_in] in LN.
  - apply app_eq_len in E as [_ E]; auto. destruct HI as [?|HI]; [discriminate|auto].
  - destruct LN as [?|LN]; [discriminate|]. apply app_eq_len in E as [_ E]; auto.
    destruct HI as [?|HI]; [discriminate|auto].
  - apply app_eq_len in E as [E _]; auto.
Qed.

Lemma expand_no_collision ts n1 n2 h1 h2 : In THash ts -> length h1 = length h2 -> h1 <> h2 ->
  expand ts n1 h1 <> expand ts n2 h2.
Proof.
  intros HI LH NE E. apply NE. apply (expand_same_pos ts n1 n2); auto.
  pose proof (f_equal (@length byte) E) as L.
  pose proof (expand_len ts n1 h1). pose proof (expand_len ts n2 h2).
  pose proof (expand_len_hash ts [] h1 h2 LH).
  destruct (Nat.eq_dec (names_in ts) 0); [left; auto|right]. nia.
Qed.
