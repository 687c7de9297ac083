(** Model of src/torrent.rs:231-313 (PathTemplate).  Strings are UTF-8 bytes;
    every character the code compares with is ASCII, so byte indices and
    character scanning agree. *)
From Verif Require Import Base M_Types.

(** src/torrent.rs:299-303 TemplateElement *)
Inductive elem := Literal (s : bytes) | Name | Hash.
(** src/torrent.rs:305-313 PathTemplateError *)
Inductive template_error := Unmatched (i : nat) | InvalidField (i : nat) | UnknownField (f : bytes).

(** ch.is_ascii_alphanumeric() || ch == '_' (src/torrent.rs:267) *)
Definition is_word (b : byte) : bool := is_alnum b || Byte.eqb b "_".

(** s.match_indices('{') (src/torrent.rs:256): positions of '{' in [s], which
    starts at index [i] *)
Fixpoint brace_positions (i : nat) (s : bytes) : list nat :=
  match s with
  | [] => []
  | c :: r => if Byte.eqb c "{" then i :: brace_positions (S i) r else brace_positions (S i) r
  end.

(** the char scan of src/torrent.rs:264-268: the leading word and what follows *)
Fixpoint word_run (s : bytes) : bytes * bytes :=
  match s with
  | c :: r => if is_word c then let (w, r') := word_run r in (c :: w, r') else ([], s)
  | [] => ([], [])
  end.

(** buf.replace("}}", "}") *)
Fixpoint replace_close (s : bytes) : bytes :=
  match s with
  | a :: r =>
      match r with
      | b :: r' =>
          if Byte.eqb a "}" && Byte.eqb b "}" then "}"%byte :: replace_close r'
          else a :: replace_close r
      | [] => [a]
      end
  | [] => []
  end.

(** src/torrent.rs:275-278, 291-293: flush the literal buffer *)
Definition flush (elems : list elem) (buf : bytes) : list elem :=
  match buf with [] => elems | _ => elems ++ [Literal (replace_close buf)] end.

(** src/torrent.rs:257-293: the loop over brace positions. Slicing with
    [prev_end > i] (or beyond the end) is [Panic]. *)
Fixpoint template_loop (s : bytes) (braces : list nat) (buf : bytes) (prev_end : nat) (elems : list elem)
  : outcome (res template_error (list elem)) :=
  match braces with
  | [] =>
      if Nat.leb prev_end (length s) then Ret (Ok (flush elems (buf ++ skipn prev_end s))) else Panic
  | i :: rest =>
      if Nat.leb prev_end i then
        let buf := buf ++ firstn (i - prev_end) (skipn prev_end s) in
        let (w, r) := word_run (skipn (S i) s) in
        let j := S (length w) in
        match r with
        | [] => Ret (Err (Unmatched i))
        | c :: _ =>
            if Nat.eqb j 1 && Byte.eqb c "{" then
              match rest with
              | [] => template_loop s rest (buf ++ ["{"%byte]) (i + 2) elems
              | _ :: rest' => template_loop s rest' (buf ++ ["{"%byte]) (i + 2) elems
              end
            else if Byte.eqb c "}" then
              let elems := flush elems buf in
              if bytes_eqb w (bs "name") then template_loop s rest [] (i + j + 1) (elems ++ [Name])
              else if bytes_eqb w (bs "hash") then template_loop s rest [] (i + j + 1) (elems ++ [Hash])
              else Ret (Err (UnknownField w))
            else Ret (Err (InvalidField i))
        end
      else Panic
  end.

(** src/torrent.rs:250-296 FromStr for PathTemplate *)
Definition parse_template (s : bytes) : outcome (res template_error (list elem)) :=
  template_loop s (brace_positions 0 s) [] 0 [].

(** src/torrent.rs:235-247 PathTemplate::format *)
Definition format_template (t : list elem) (name hash : bytes) : bytes :=
  flat_map (fun e => match e with
                     | Literal s => s
                     | Name => name
                     | Hash => show_info_hash hash
                     end) t.
