(** What a regular expression matches, without regard to preference. *)
From Verif Require Import Base Regex.

(** [spans r b w a]: [r] matches [w], which stands between [b] and [a]. *)
Inductive spans : regex -> str -> str -> str -> Prop :=
  | sp_empty b a : spans REmpty b [] a
  | sp_start a : spans RStart [] [] a
  | sp_end b : spans REnd b [] []
  | sp_set p b c a : p c = true -> spans (RSet p) b [c] a
  | sp_cat r1 r2 b w1 w2 a : spans r1 b w1 (w2 ++ a) -> spans r2 (b ++ w1) w2 a -> spans (RCat r1 r2) b (w1 ++ w2) a
  | sp_left r1 r2 b w a : spans r1 b w a -> spans (RAlt r1 r2) b w a
  | sp_right r1 r2 b w a : spans r2 b w a -> spans (RAlt r1 r2) b w a
  | sp_done r b a : spans (RStar r) b [] a
  | sp_more r b w1 w2 a : w1 <> [] -> spans r b w1 (w2 ++ a) -> spans (RStar r) (b ++ w1) w2 a ->
      spans (RStar r) b (w1 ++ w2) a
  | sp_group n r b w a : spans r b w a -> spans (RGroup n r) b w a.
