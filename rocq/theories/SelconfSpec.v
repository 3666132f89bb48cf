(** What the configuration file and the file of default types mean. *)
From Verif Require Import Base.
From Coq Require Import String Ascii ZArith.
Open Scope string_scope.
Open Scope list_scope.
Open Scope N_scope.

Definition letters (s : string) : list N := map N_of_ascii (list_ascii_of_string s).
Definition blank (c : N) : Prop := c = 32 \/ 9 <= c <= 13.
(** Blanks and control characters. *)
Definition junk (c : N) : Prop := c <= 32 \/ c = 127.
(** The same text, but for capitals. *)
Definition same_letter (x y : N) : Prop := x = y \/ (65 <= x <= 90 /\ y = x + 32) \/ (65 <= y <= 90 /\ x = y + 32).
Definition any_case (w s : list N) : Prop := Forall2 same_letter w s.
(** A file of lines, each shorter than [n] with its newline. *)
Definition config_file (lines : list (list N)) : list N := List.concat (map (fun l => l ++ [10]) lines).
Definition plain_line (n : nat) (l : list N) : Prop := ~ In 10 l /\ ~ In 0 l /\ (S (List.length l) <= n)%nat.

(** SELINUX=, blanks, a word for the mode in small or capital letters, and anything. *)
Definition mode_word (w : string) (m : Z) : Prop := (w = "enforcing" /\ m = 1%Z) \/ (w = "permissive" /\ m = 0%Z) \/ (w = "disabled" /\ m = (-1)%Z).
Definition gives_mode (l : list N) (m : Z) : Prop :=
  exists w ws word rest, mode_word w m /\ l = letters "SELINUX=" ++ ws ++ word ++ rest /\ Forall blank ws /\ any_case (letters w) word.
(** Blanks, SELINUXTYPE= in small or capital letters, and anything. *)
Definition for_type (l : list N) : Prop :=
  exists ws tag rest, l = ws ++ tag ++ rest /\ Forall blank ws /\ any_case (letters "SELINUXTYPE=") tag.
(** ... with a type that begins with something else than a blank and ends with something else than a blank or control character. *)
Definition gives_type (l t : list N) : Prop :=
  exists ws tag ws' after c d, l = ws ++ tag ++ ws' ++ t ++ after /\ Forall blank ws /\ any_case (letters "SELINUXTYPE=") tag /\ Forall blank ws'
    /\ Forall junk after /\ (exists r, t = c :: r) /\ ~ blank c /\ (exists r, t = r ++ [d]) /\ (t = [c] \/ ~ junk d).
(** Blanks, the role, a colon and a type. *)
Definition gives_default (role l t : list N) : Prop := exists ws, l = ws ++ role ++ 58 :: t /\ Forall blank ws.
Definition a_role (role : list N) : Prop := exists c r, role = c :: r /\ ~ blank c.
