(** Rust standard library UTF-8 handling used by /repo: [str::from_utf8],
    [String::from_utf8_lossy] (src/torrent.rs:38, src/util.rs:66),
    [[u8]::utf8_chunks] (src/peer/mod.rs:493). *)
From Verif Require Import Base S_Utf8.

Definition is_cont (b : byte) : bool := (128 <=? b2n b) && (b2n b <? 192).
Definition in_range (lo hi : N) (b : byte) : bool := (lo <=? b2n b) && (b2n b <=? hi).

(** Which second bytes may follow a 3-byte / 4-byte lead (core::str::lossy). *)
Definition second3 (x : N) (b : byte) : bool :=
  if x =? 224 then in_range 160 191 b
  else if x =? 237 then in_range 128 159 b
  else in_range 128 191 b.
Definition second4 (x : N) (b : byte) : bool :=
  if x =? 240 then in_range 144 191 b
  else if x =? 244 then in_range 128 143 b
  else in_range 128 191 b.

(** One step of core::str::lossy::Utf8Chunks: the next character, or the next
    maximal invalid sequence ([None]), and the rest. *)
Definition utf8_step (l : bytes) : option (option N * bytes) :=
  match l with
  | [] => None
  | b0 :: r0 =>
      let x := b2n b0 in
      if x <? 128 then Some (Some x, r0)
      else if (194 <=? x) && (x <=? 223) then
        match r0 with
        | b1 :: r1 =>
            if is_cont b1 then Some (Some ((x - 192) * 64 + (b2n b1 - 128)), r1)
            else Some (None, r0)
        | [] => Some (None, r0)
        end
      else if (224 <=? x) && (x <=? 239) then
        match r0 with
        | b1 :: r1 =>
            if second3 x b1 then
              match r1 with
              | b2 :: r2 =>
                  if is_cont b2
                  then Some (Some ((x - 224) * 4096 + (b2n b1 - 128) * 64 + (b2n b2 - 128)), r2)
                  else Some (None, r1)
              | [] => Some (None, r1)
              end
            else Some (None, r0)
        | [] => Some (None, r0)
        end
      else if (240 <=? x) && (x <=? 244) then
        match r0 with
        | b1 :: r1 =>
            if second4 x b1 then
              match r1 with
              | b2 :: r2 =>
                  if is_cont b2 then
                    match r2 with
                    | b3 :: r3 =>
                        if is_cont b3
                        then Some (Some ((x - 240) * 262144 + (b2n b1 - 128) * 4096
                                         + (b2n b2 - 128) * 64 + (b2n b3 - 128)), r3)
                        else Some (None, r2)
                    | [] => Some (None, r2)
                    end
                  else Some (None, r1)
              | [] => Some (None, r1)
              end
            else Some (None, r0)
        | [] => Some (None, r0)
        end
      else Some (None, r0)
  end.

(** All items: characters and invalid sequences, in order. *)
Fixpoint utf8_items (fuel : nat) (l : bytes) : list (option N) :=
  match fuel with
  | O => []
  | S f => match utf8_step l with
           | None => []
           | Some (i, r) => i :: utf8_items f r
           end
  end.
Definition utf8_decode (l : bytes) : list (option N) := utf8_items (length l) l.

(** str::from_utf8(..).is_ok() *)
Definition utf8_valid (l : bytes) : bool :=
  forallb (fun i => match i with Some _ => true | None => false end) (utf8_decode l).

Definition REPLACEMENT : N := 65533.
(** String::from_utf8_lossy as characters, and as bytes. *)
Definition lossy_chars (l : bytes) : list N :=
  map (fun i => match i with Some c => c | None => REPLACEMENT end) (utf8_decode l).
Definition from_utf8_lossy (l : bytes) : bytes := utf8 (lossy_chars l).
