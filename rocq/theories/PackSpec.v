(** What a module package file says, in terms of its bytes alone. *)
From Verif Require Import Base.

(** The little-endian word at a place of the file. *)
Definition word_at (f : list N) (i : nat) : N :=
  nth i f 0 + 256 * nth (i + 1) f 0 + 65536 * nth (i + 2) f 0 + 16777216 * nth (i + 3) f 0.
(** The bytes from one place up to another. *)
Definition bytes_between (f : list N) (a b : nat) : list N := firstn (b - a) (skipn a f).
(** The sections of the file: section number i goes from the place given by the i-th word after the first three up to the next
    section, the last one up to the end of the file. *)
Definition sections_are (f : list N) (L : list (nat * nat)) : Prop :=
  forall i a b, nth_error L i = Some (a, b) ->
    N.of_nat a = word_at f (12 + 4 * i)
    /\ N.of_nat b = (if Nat.eqb (S i) (length L) then N.of_nat (length f) else word_at f (12 + 4 * S i)).
(** A file in good order: the right first word, the number of sections in the third word, at most a hundred, and sections that lie inside the
    file one after another, with room for their own first word. *)
Definition in_good_order (f : list N) (L : list (nat * nat)) : Prop :=
  word_at f 0 = 0xf97cff8f /\ word_at f 8 = N.of_nat (length L) /\ (length L <= 100)%nat /\ (12 + 4 * length L <= length f)%nat
  /\ sections_are f L /\ Forall (fun s => fst s + 4 <= snd s /\ snd s <= length f)%nat L.
(** No section is of this kind; the kind is the first word of the section. *)
Definition none_of (f : list N) (kind : N) (L : list (nat * nat)) : Prop := Forall (fun s => word_at f (fst s) <> kind) L.
(** The one section of a kind, if there is one, and its value. *)
Definition only_one {X} (f : list N) (kind : N) (value : nat -> nat -> option X) (L : list (nat * nat)) (x : option X) : Prop :=
  match x with
  | None => none_of f kind L
  | Some v => exists L1 a b L2, L = L1 ++ (a, b) :: L2 /\ word_at f a = kind /\ value a b = Some v /\ none_of f kind L1 /\ none_of f kind L2
  end.
(** The text of a section: all of it but its first word. *)
Definition text_of_section (f : list N) (a b : nat) : option (list N) := Some (bytes_between f (a + 4) b).
(** The file holds this package: the policy that is read at the one module section, and the texts. *)
Definition holds {P} (reads : list N -> option P) (f : list N) (version : N) (policy : P) (fc seusers user_extra netfilter : option (list N)) : Prop :=
  exists L, in_good_order f L /\ version = word_at f 4
    /\ only_one f 0xf97cff8d (fun a _ => reads (skipn a f)) L (Some policy)
    /\ only_one f 0xf97cff90 (text_of_section f) L fc
    /\ only_one f 0x97cff91 (text_of_section f) L seusers
    /\ only_one f 0x97cff92 (text_of_section f) L user_extra
    /\ only_one f 0x97cff93 (text_of_section f) L netfilter.
(** What the reader of binary policies has to do with the writer: reading what was written gives the policy back, whatever follows, and
    what was written begins with the word of modules. *)
Definition reads_back {P} (writes : P -> option (list N)) (reads : list N -> option P) (p : P) : Prop :=
  forall w, writes p = Some w -> (forall rest, reads (w ++ rest) = Some p) /\ (4 <= length w)%nat /\ word_at w 0 = 0xf97cff8d.
(** The bytes of a text that may be missing. *)
Definition size_of (x : option (list N)) : nat := match x with Some d => 4 + length d | None => 0 end.
(** Four bytes of a word. *)
Definition word_bytes (x : N) : list N := [x mod 256; x / 256 mod 256; x / 65536 mod 256; x / 16777216 mod 256].
(** The beginning of a binary base policy. *)
Definition base_begins (w : list N) : Prop :=
  exists id v c s o rest, length id = 15%nat /\ w = word_bytes 0xf97cff8d ++ word_bytes 15 ++ id ++ word_bytes 1 ++ word_bytes v ++ word_bytes c
    ++ word_bytes s ++ word_bytes o ++ rest.
(** The beginning of a binary policy module of this name and version. *)
Definition module_begins (w name vers : list N) : Prop :=
  exists id v c s o rest, length id = 15%nat /\ w = word_bytes 0xf97cff8d ++ word_bytes 15 ++ id ++ word_bytes 2 ++ word_bytes v ++ word_bytes c
    ++ word_bytes s ++ word_bytes o ++ word_bytes (N.of_nat (length name)) ++ name ++ word_bytes (N.of_nat (length vers)) ++ vers ++ rest.
(** The last text of a package is of at least four bytes, or there is none. *)
Definition last_not_tiny (fc seusers user_extra netfilter : option (list N)) : Prop :=
  match netfilter, user_extra, seusers, fc with
  | Some d, _, _, _ | None, Some d, _, _ | None, None, Some d, _ | None, None, None, Some d => (4 <= length d)%nat
  | None, None, None, None => True
  end.
