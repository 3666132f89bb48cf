(** Model of libsepol/src/context.c and libsepol/src/context_record.c (context strings and records),
    and of libselinux/src/context.c (the context_t type). Allocation failures are not modelled. *)
From Verif Require Import Base EbitmapModel MlsModel.

(** Result of an API call: success, clean failure (STATUS_ERR), or undefined behaviour (for
    example a NULL dereference). *)
Inductive res (A : Type) : Type := ROk (a : A) | RErr | RUB.
Arguments ROk {A} a.
Arguments RErr {A}.
Arguments RUB {A}.

(** The C string stored in a buffer: the bytes before the first NUL. *)
Fixpoint cstr (s : list N) : list N :=
  match s with [] => [] | c :: t => if c =? 0 then [] else c :: cstr t end.

(** libsepol/src/context_record.c:10-22 (struct sepol_context). User, role and type are always set
    in the records built here; the MLS field may be NULL. *)
Record crec := mkCR { cr_user : list N; cr_role : list N; cr_type : list N; cr_mls : option (list N) }.

(** The bytes of the string "<<none>>". *)
Definition none_str : list N := [60;60;110;111;110;101;62;62].

(** strchr(low, ':'): the text before the first colon and the text after it. *)
Definition split_colon (s : list N) : option (list N * list N) :=
  let (a, r) := span (fun c => negb (c =? ch_colon)) s in
  match r with [] => None | _ :: r' => Some (a, r') end.

(** libsepol/src/context_record.c:198-268 (sepol_context_from_string). [ROk None] is the success
    with a NULL record returned for "<<none>>". *)
Definition sepol_context_from_string (s : list N) : res (option crec) :=
  if str_eqb s none_str then ROk None
  else
    match split_colon s with
    | None => RErr
    | Some (u, s1) =>
        match split_colon s1 with
        | None => RErr
        | Some (r, s2) =>
            match split_colon s2 with
            | None => ROk (Some (mkCR u r s2 None))
            | Some (t, m) => ROk (Some (mkCR u r t (Some m)))
            end
        end
    end.

(** libsepol/src/context_record.c:270-321 (sepol_context_to_string). *)
Definition sepol_context_to_string (c : crec) : list N :=
  cr_user c ++ ch_colon :: cr_role c ++ ch_colon :: cr_type c ++
  match cr_mls c with None => [] | Some m => ch_colon :: m end.

(** libsepol/src/context.c:87-138 (context_to_string). [None] is a missing name. *)
Definition context_to_string (p : policy) (c : context) : option (list N) :=
  match p_user_name p (c_user c), p_role_name p (c_role c), p_type_name p (c_type c),
        mls_sid_to_context p (c_range c) with
  | Some u, Some r, Some t, Some m => Some (u ++ ch_colon :: r ++ ch_colon :: t ++ m)
  | _, _, _, _ => None
  end.

(** libsepol/src/context.c:87-107: the size computed for the buffer of context_to_string. *)
Definition context_to_string_len (p : policy) (c : context) : option N :=
  match p_user_name p (c_user c), p_role_name p (c_role c), p_type_name p (c_type c),
        mls_compute_context_len p (c_range c) with
  | Some u, Some r, Some t, Some m =>
      Some (N.of_nat (length u) + 1 + (N.of_nat (length r) + 1) + N.of_nat (length t) + m + 1)
  | _, _, _, _ => None
  end.

(** Empty range written by context_init (libsepol/include/sepol/policydb/context.h:95-98). *)
Definition empty_range : mrange := mkR (mkL 0 ebitmap_init) (mkL 0 ebitmap_init).

(** libsepol/src/context.c:143-237 (context_from_record); [None] as input is a NULL record, whose
    fields are read without a check. *)
Definition context_from_record (p : policy) (rec : option crec) : res context :=
  match rec with
  | None => RUB
  | Some rc =>
      match p_user_find p (cr_user rc), p_role_find p (cr_role rc), p_type_find p (cr_type rc) with
      | Some u, Some r, Some (t, isattr) =>
          if isattr then RErr
          else
            match cr_mls rc with
            | Some m =>
                if negb (p_mls p) then RErr
                else
                  match mls_context_to_sid p m with
                  | None => RErr
                  | Some rng =>
                      let c := mkC u r t rng in
                      if context_is_valid p c then ROk c else RErr
                  end
            | None =>
                if p_mls p then RErr
                else
                  let c := mkC u r t empty_range in
                  if context_is_valid p c then ROk c else RErr
            end
      | _, _, _ => RErr
      end
  end.

(** libsepol/src/context.c:242-286 (context_to_record); [None] is a missing name. *)
Definition context_to_record (p : policy) (c : context) : option crec :=
  match p_user_name p (c_user c), p_role_name p (c_role c), p_type_name p (c_type c) with
  | Some u, Some r, Some t =>
      if p_mls p then
        match mls_to_string p (c_range c) with
        | None => None
        | Some m => Some (mkCR u r t (Some m))
        end
      else Some (mkCR u r t None)
  | _, _, _ => None
  end.

(** libsepol/src/context.c:291-331 (context_from_string) on the [len] bytes of a buffer. The
    rejection of the length SIZE_MAX is not modelled: no list is that long in memory. *)
Definition context_from_string (p : policy) (buf : list N) : res context :=
  match buf with
  | [] => RErr
  | _ =>
      match sepol_context_from_string (cstr buf) with
      | ROk rec => context_from_record p rec
      | RErr => RErr
      | RUB => RUB
      end
  end.

(** ** libselinux context_t *)

(** libselinux/src/context.c:12-15 (context_private_t); [None] is a NULL component. *)
Record ctx := mkCtx { x_user : option (list N); x_role : option (list N); x_type : option (list N);
                      x_range : option (list N) }.

(** libselinux/src/context.c:40-54: the validation pass of context_new; the number of colons, or
    [None] on a forbidden character. *)
Fixpoint ctx_scan (s : list N) (count : N) : option N :=
  match s with
  | [] => Some count
  | c :: t =>
      if c =? 58 then ctx_scan t (count + 1)
      else if (c =? 10) || (c =? 9) || (c =? 13) then None
      else if (c =? 32) && (count <? 3) then None
      else ctx_scan t count
  end.

(** libselinux/src/context.c:63-75: the component loop; at most four components. An empty rest
    ends the loop, leaving the remaining components NULL. *)
Fixpoint ctx_components (k : nat) (s : list N) : list (list N) :=
  match s with
  | [] => []
  | _ =>
      match k with
      | O => [s]
      | S k' =>
          match split_colon s with
          | None => [s]
          | Some (a, r) => a :: ctx_components k' r
          end
      end
  end.

(** libselinux/src/context.c:22-81 (context_new). [None] is failure. *)
Definition context_new (s : list N) : option ctx :=
  match ctx_scan s 0 with
  | None => None
  | Some count =>
      if (count <? 2) || (5 <? count) then None
      else
        let cs := ctx_components 3 s in
        Some (mkCtx (nth_error cs 0) (nth_error cs 1) (nth_error cs 2) (nth_error cs 3))
  end.

(** ":component" when the component is set. *)
Definition ctx_part (o : option (list N)) : list N :=
  match o with None => [] | Some s => ch_colon :: s end.

(** libselinux/src/context.c:117-141 (context_str) and 147-171 (context_to_str). The first
    component is copied without a NULL check: [RUB]. *)
Definition context_str (c : ctx) : res (list N) :=
  match x_user c with
  | None => RUB
  | Some u => ROk (u ++ ctx_part (x_role c) ++ ctx_part (x_type c) ++ ctx_part (x_range c))
  end.

(** libselinux/src/context.c:175-196 (set_comp): the character check. *)
Definition comp_ok (is_range : bool) (s : list N) : bool :=
  forallb (fun c => negb ((c =? 9) || (c =? 10) || (c =? 13) ||
                          (((c =? 58) || (c =? 32)) && negb is_range))) s.

(** libselinux/src/context.c:7-10: the four components. *)
Inductive comp := CUser | CRole | CType | CRange.

(** libselinux/src/context.c:198-208 (context_*_get). *)
Definition ctx_get (c : ctx) (k : comp) : option (list N) :=
  match k with CUser => x_user c | CRole => x_role c | CType => x_type c | CRange => x_range c end.

(** libselinux/src/context.c:175-217 (set_comp and context_*_set); [None] is failure (-1). *)
Definition ctx_set (c : ctx) (k : comp) (v : option (list N)) : option ctx :=
  let ok := match v with
            | None => true
            | Some s => comp_ok (match k with CRange => true | _ => false end) s
            end in
  if ok then
    Some (match k with
          | CUser => mkCtx v (x_role c) (x_type c) (x_range c)
          | CRole => mkCtx (x_user c) v (x_type c) (x_range c)
          | CType => mkCtx (x_user c) (x_role c) v (x_range c)
          | CRange => mkCtx (x_user c) (x_role c) (x_type c) v
          end)
  else None.
