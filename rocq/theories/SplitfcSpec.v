(** What splitting the file contexts means. *)
From Verif Require Import Base HomedirSpec.

(** A line with a word of the template: HOME_DIR or HOME_ROOT at its beginning, ROLE or USER anywhere. *)
Definition has_word (l : list N) : Prop := begins home_dir l \/ begins home_root l \/ occurs role_word l \/ occurs user_word l.
(** A line that fits into the buffer. *)
Definition fits (l : list N) : Prop := one_line l /\ ~ In 0 l /\ N.of_nat (length l) + 1 < 4096.
