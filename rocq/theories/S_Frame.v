(** Specification: a stream of length-prefixed frames, as a whole. *)
From Verif Require Import Base S_Wire M_Frame.

(** A started but unfinished frame (or nothing). *)
Definition unfinished (s : bytes) : Prop :=
  (length s < 4)%nat \/
  exists h t, s = h ++ t /\ length h = 4%nat /\ be h <= 65535 /\ blen t < be h.

Inductive remainder := Unfinished (s : bytes) | TooLong.

(** [frames s fs r]: the byte stream [s] is the frames [fs] followed by [r]. *)
Inductive frames : bytes -> list bytes -> remainder -> Prop :=
| fr_end s : unfinished s -> frames s [] (Unfinished s)
| fr_long h s : length h = 4%nat -> 65535 < be h -> frames (h ++ s) [] TooLong
| fr_cons h b s fs r :
    length h = 4%nat -> be h = blen b -> blen b <= 65535 -> frames s fs r -> frames (h ++ b ++ s) (b :: fs) r.

(** What the reader reports after the last frame. *)
Definition verdict (r : remainder) (e : ending) : frame_result :=
  match r, e with
  | TooLong, _ => FrameError
  | Unfinished _, Silent => FramePending
  | Unfinished _, Broken => FrameError
  | Unfinished s, Closed => if Nat.eqb (length s) 0 || Nat.eqb (length s) 4 then FrameEnd else FrameError
  end.
