(** Model of libsepol/include/sepol/policydb/mls_types.h, libsepol/include/sepol/policydb/context.h
    and libsepol/src/mls.c. Characters are byte codes; C strings are lists of non-zero bytes.
    Memory allocation failures are not modelled. *)
From Verif Require Import Base EbitmapModel.

(** A C string without its terminating NUL. *)
Notation str := (list N) (only parsing).

(** Equality of strings (strcmp(...) == 0). *)
Fixpoint str_eqb (a b : list N) : bool :=
  match a, b with
  | [], [] => true
  | x :: a', y :: b' => (x =? y) && str_eqb a' b'
  | _, _ => false
  end.

(** Character codes used by the parsers. *)
Definition ch_colon : N := 58.
Definition ch_dash : N := 45.
Definition ch_comma : N := 44.
Definition ch_dot : N := 46.

(** libsepol/include/sepol/policydb/mls_types.h:44-47 (mls_level_t). *)
Record level := mkL { l_sens : N; l_cat : ebitmap }.

(** libsepol/include/sepol/policydb/mls_types.h:49-51 (mls_range_t). *)
Record mrange := mkR { r_low : level; r_high : level }.

(** libsepol/include/sepol/policydb/mls_types.h:53-74 (mls_range_glblub); [None] is -EINVAL. *)
Definition mls_range_glblub (r1 r2 : mrange) : option mrange :=
  if (l_sens (r_high r1) <? l_sens (r_low r2)) || (l_sens (r_high r2) <? l_sens (r_low r1)) then None
  else Some (mkR (mkL (N.max (l_sens (r_low r1)) (l_sens (r_low r2)))
                      (ebitmap_and (l_cat (r_low r1)) (l_cat (r_low r2))))
                 (mkL (N.min (l_sens (r_high r1)) (l_sens (r_high r2)))
                      (ebitmap_and (l_cat (r_high r1)) (l_cat (r_high r2))))).

(** libsepol/include/sepol/policydb/mls_types.h:77-84 (mls_level_cpy). *)
Definition mls_level_cpy (src : level) : level := mkL (l_sens src) (ebitmap_cpy (l_cat src)).

(** libsepol/include/sepol/policydb/mls_types.h:102-105 (mls_level_eq). *)
Definition mls_level_eq (l1 l2 : level) : bool :=
  (l_sens l1 =? l_sens l2) && ebitmap_cmp (l_cat l1) (l_cat l2).

(** libsepol/include/sepol/policydb/mls_types.h:107-110 (mls_level_dom). *)
Definition mls_level_dom (l1 l2 : level) : bool :=
  (l_sens l2 <=? l_sens l1) && ebitmap_contains (l_cat l1) (l_cat l2).

(** libsepol/include/sepol/policydb/mls_types.h:112-113 (mls_level_incomp). *)
Definition mls_level_incomp (l1 l2 : level) : bool :=
  negb (mls_level_dom l1 l2) && negb (mls_level_dom l2 l1).

(** libsepol/include/sepol/policydb/mls_types.h:115-116 (mls_level_between). *)
Definition mls_level_between (l1 l2 l3 : level) : bool :=
  mls_level_dom l1 l2 && mls_level_dom l3 l1.

(** libsepol/include/sepol/policydb/mls_types.h:118-120 (mls_range_contains). *)
Definition mls_range_contains (r1 r2 : mrange) : bool :=
  mls_level_dom (r_low r2) (r_low r1) && mls_level_dom (r_high r1) (r_high r2).

(** libsepol/include/sepol/policydb/mls_types.h:122-138 (mls_range_cpy). *)
Definition mls_range_cpy (src : mrange) : mrange :=
  mkR (mls_level_cpy (r_low src)) (mls_level_cpy (r_high src)).

(** libsepol/include/sepol/policydb/mls_types.h:152-156 (mls_range_eq). *)
Definition mls_range_eq (r1 r2 : mrange) : bool :=
  mls_level_eq (r_low r1) (r_low r2) && mls_level_eq (r_high r1) (r_high r2).

(** libsepol/include/sepol/policydb/context.h:33-38 (context_struct_t). *)
Record context := mkC { c_user : N; c_role : N; c_type : N; c_range : mrange }.

(** libsepol/include/sepol/policydb/context.h:58-73 (mls_context_cpy_low, the range written). *)
Definition mls_range_cpy_low (r : mrange) : mrange :=
  mkR (mls_level_cpy (r_low r)) (mls_level_cpy (r_low r)).

(** libsepol/include/sepol/policydb/context.h:78-93 (mls_context_cpy_high, the range written). *)
Definition mls_range_cpy_high (r : mrange) : mrange :=
  mkR (mls_level_cpy (r_high r)) (mls_level_cpy (r_high r)).

(** The parts of policydb_t used by mls.c and context.c
    (libsepol/include/sepol/policydb/policydb.h). The val_to_name arrays are functions of the
    value (1-based; [None] when out of bounds or NULL); the symbol hash tables are functions of the
    key (C22 covers the hash table itself). The type table yields the value and whether it is an
    attribute. *)
Record policy := mkP {
  p_mls : bool;
  p_nlevels : N; p_ncats : N; p_nusers : N; p_nroles : N; p_ntypes : N;
  p_sens_name : N -> option (list N);
  p_cat_name : N -> option (list N);
  p_user_name : N -> option (list N);
  p_role_name : N -> option (list N);
  p_type_name : N -> option (list N);
  p_level_find : list N -> option level;        (* level_datum_t's level *)
  p_cat_find : list N -> option N;              (* cat_datum_t's value *)
  p_user_find : list N -> option N;
  p_role_find : list N -> option N;
  p_type_find : list N -> option (N * bool);    (* value, flavor == TYPE_ATTRIB *)
  p_user_struct : N -> option (ebitmap * mrange); (* user_val_to_struct: role cache, exp_range *)
  p_role_struct : N -> option ebitmap             (* role_val_to_struct: type cache *)
}.

(** libsepol/include/sepol/policydb/policydb.h (OBJECT_R_VAL). *)
Definition OBJECT_R_VAL : N := 1.

(** libsepol/src/mls.c:193-237: the category part of one level in mls_sid_to_context. The list is
    what ebitmap_for_each_bit visits, [range] and [wrote_sep] are the C variables, [last] is the
    value of the loop variable [i] after the loop (the end of the bitmap). [None] is an access to a
    missing entry of p_cat_val_to_name (undefined behaviour). Category [i] has value i+1. *)
Fixpoint cats_to_str (p : policy) (vis : list (N * bool)) (range : N) (wrote_sep : bool) (last : N)
  : option (list N) :=
  match vis with
  | [] =>
      if 1 <? range then
        match p_cat_name p last with
        | None => None
        | Some nm => Some ((if 2 <? range then ch_dot else ch_comma) :: nm)
        end
      else Some []
  | (i, true) :: t =>
      if negb (range =? 0) then cats_to_str p t (range + 1) wrote_sep last
      else
        match p_cat_name p (i + 1) with
        | None => None
        | Some nm =>
            match cats_to_str p t 1 true last with
            | None => None
            | Some rest => Some ((if wrote_sep then ch_comma else ch_colon) :: nm ++ rest)
            end
        end
  | (i, false) :: t =>
      if 1 <? range then
        match p_cat_name p i with
        | None => None
        | Some nm =>
            match cats_to_str p t 0 wrote_sep last with
            | None => None
            | Some rest => Some ((if 2 <? range then ch_dot else ch_comma) :: nm ++ rest)
            end
        end
      else cats_to_str p t 0 wrote_sep last
  end.

(** libsepol/src/mls.c:184-237 (one level of mls_sid_to_context). *)
Definition level_to_str (p : policy) (l : level) : option (list N) :=
  match p_sens_name p (l_sens l), visited_bits (l_cat l) with
  | Some nm, Some vis =>
      match cats_to_str p vis 0 false (ebitmap_length (l_cat l)) with
      | None => None
      | Some cs => Some (nm ++ cs)
      end
  | _, _ => None
  end.

(** libsepol/src/mls.c:167-252 (mls_sid_to_context, the bytes appended). *)
Definition mls_sid_to_context (p : policy) (r : mrange) : option (list N) :=
  if negb (p_mls p) then Some []
  else
    match level_to_str p (r_low r) with
    | None => None
    | Some lo =>
        if mls_level_eq (r_low r) (r_high r) then Some (ch_colon :: lo)
        else
          match level_to_str p (r_high r) with
          | None => None
          | Some hi => Some (ch_colon :: lo ++ ch_dash :: hi)
          end
    end.

(** libsepol/src/mls.c:127-148: the category part of one level in mls_compute_context_len. *)
Fixpoint cats_len (p : policy) (vis : list (N * bool)) (range : N) (last : N) : option N :=
  match vis with
  | [] =>
      if 1 <? range then
        match p_cat_name p last with None => None | Some nm => Some (N.of_nat (length nm) + 1) end
      else Some 0
  | (i, true) :: t =>
      if negb (range =? 0) then cats_len p t (range + 1) last
      else
        match p_cat_name p (i + 1), cats_len p t (range + 1) last with
        | Some nm, Some n => Some (N.of_nat (length nm) + 1 + n)
        | _, _ => None
        end
  | (i, false) :: t =>
      if 1 <? range then
        match p_cat_name p i, cats_len p t 0 last with
        | Some nm, Some n => Some (N.of_nat (length nm) + 1 + n)
        | _, _ => None
        end
      else cats_len p t 0 last
  end.

(** libsepol/src/mls.c:121-148 (one level of mls_compute_context_len). *)
Definition level_len (p : policy) (l : level) : option N :=
  match p_sens_name p (l_sens l), visited_bits (l_cat l) with
  | Some nm, Some vis =>
      match cats_len p vis 0 (ebitmap_length (l_cat l)) with
      | None => None
      | Some n => Some (N.of_nat (length nm) + n)
      end
  | _, _ => None
  end.

(** libsepol/src/mls.c:109-160 (mls_compute_context_len; the wrap of the unsigned int total is not
    modelled). *)
Definition mls_compute_context_len (p : policy) (r : mrange) : option N :=
  if negb (p_mls p) then Some 0
  else
    match level_len p (r_low r) with
    | None => None
    | Some lo =>
        if mls_level_eq (r_low r) (r_high r) then Some (1 + lo)
        else
          match level_len p (r_high r) with
          | None => None
          | Some hi => Some (1 + lo + 1 + hi)
          end
    end.

(** libsepol/src/mls.c:42-76 (mls_to_string: mls_sid_to_context without the leading ':'). Without
    MLS the code would copy from an uninitialised buffer; callers test policydb->mls first, here
    this is [None]. *)
Definition mls_to_string (p : policy) (r : mrange) : option (list N) :=
  match mls_sid_to_context p r with
  | Some (_ :: s) => Some s
  | _ => None
  end.

(** libsepol/src/mls.c:348-349, 369-370, 426-427 (scan up to a delimiter): the token and the rest. *)
Fixpoint span (f : N -> bool) (s : list N) : list N * list N :=
  match s with
  | [] => ([], [])
  | c :: t => if f c then let '(a, b) := span f t in (c :: a, b) else ([], s)
  end.

(** libsepol/src/mls.c:351-353 (delim = *p; if (delim != 0) *p++ = 0). 0 is the end of the string. *)
Definition take_delim (s : list N) : N * list N :=
  match s with [] => (0, []) | c :: t => (c, t) end.

(** libsepol/src/mls.c:376-379 (strchr for '.', splitting the token). *)
Definition split_dot (s : list N) : list N * option (list N) :=
  let '(a, b) := span (fun c => negb (c =? ch_dot)) s in
  match b with [] => (a, None) | _ :: t => (a, Some t) end.

(** libsepol/src/mls.c:410-416 (set categories i .. hi-1). *)
Fixpoint set_range_loop (n : nat) (i : N) (e : ebitmap) : option ebitmap :=
  match n with
  | O => Some e
  | S n' =>
      match ebitmap_set_bit e i true with
      | None => None
      | Some e' => set_range_loop n' (i + 1) e'
      end
  end.

(** libsepol/src/mls.c:375-417 (one token of the category list). *)
Definition parse_cat_token (p : policy) (tok : list N) (e : ebitmap) : option ebitmap :=
  let '(lo, hi) := split_dot tok in
  match p_cat_find p lo with
  | None => None
  | Some v =>
      match ebitmap_set_bit e (v - 1) true with
      | None => None
      | Some e' =>
          match hi with
          | None => Some e'
          | Some hs =>
              match p_cat_find p hs with
              | None => None
              | Some w =>
                  if w <=? v then None
                  else set_range_loop (N.to_nat (w - v)) v e'
              end
          end
      end
  end.

(** libsepol/src/mls.c:367-421 (the category loop). Result: delimiter, rest, categories. Each round
    but the last consumes a ',', so [length s + 1] rounds always suffice. *)
Fixpoint parse_cats (fuel : nat) (p : policy) (s : list N) (e : ebitmap)
  : option (N * list N * ebitmap) :=
  match fuel with
  | O => None
  | S f =>
      let '(tok, r) := span (fun c => negb (c =? ch_comma) && negb (c =? ch_dash)) s in
      let '(delim, r') := take_delim r in
      match parse_cat_token p tok e with
      | None => None
      | Some e' => if delim =? ch_comma then parse_cats f p r' e' else Some (delim, r', e')
      end
  end.

(** libsepol/src/mls.c:356-422 (one level, given the sensitivity token, its delimiter and the
    rest). *)
Definition parse_level (p : policy) (tok : list N) (delim : N) (s : list N)
  : option (level * N * list N) :=
  match p_level_find p tok with
  | None => None
  | Some ld =>
      if delim =? ch_colon then
        match parse_cats (S (length s)) p s ebitmap_init with
        | None => None
        | Some (d, r, e) => Some (mkL (l_sens ld) e, d, r)
        end
      else Some (mkL (l_sens ld) ebitmap_init, delim, s)
  end.

(** libsepol/src/mls.c:329-448 (mls_context_to_sid on a policy with MLS, with oldc non-zero, into a
    context whose range is empty). *)
Definition mls_context_to_sid (p : policy) (s : list N) : option mrange :=
  let '(tok, r) := span (fun c => negb (c =? ch_colon) && negb (c =? ch_dash)) s in
  let '(delim, r1) := take_delim r in
  match parse_level p tok delim r1 with
  | None => None
  | Some (lo, d, r2) =>
      if d =? ch_dash then
        let '(tok2, r3) := span (fun c => negb (c =? ch_colon)) r2 in
        let '(delim2, r4) := take_delim r3 in
        match parse_level p tok2 delim2 r4 with
        | None => None
        | Some (hi, _, _) => Some (mkR lo hi)
        end
      else Some (mkR lo (mls_level_cpy lo))
  end.

(** libsepol/src/mls.c:292-301 (ebitmap_for_each_positive_bit loop of mls_context_isvalid; [i >
    nprim] is as in the code). *)
Definition cats_ok (p : policy) (assoc : ebitmap) (cats : ebitmap) : bool :=
  match positive_bits cats with
  | None => false
  | Some l => forallb (fun i => negb (p_ncats p <? i) && ebitmap_get_bit assoc i) l
  end.

(** libsepol/src/mls.c:279-302 (one level of mls_context_isvalid). *)
Definition level_ok (p : policy) (l : level) : bool :=
  if (l_sens l =? 0) || (p_nlevels p <? l_sens l) then false
  else
    match p_sens_name p (l_sens l) with
    | None => false
    | Some key =>
        match p_level_find p key with
        | None => false
        | Some ld => cats_ok p (l_cat ld) (l_cat l)
        end
    end.

(** libsepol/src/mls.c:258-317 (mls_context_isvalid). *)
Definition mls_context_isvalid (p : policy) (c : context) : bool :=
  if negb (p_mls p) then true
  else if negb (mls_level_dom (r_high (c_range c)) (r_low (c_range c))) then false
  else if negb (level_ok p (r_low (c_range c)) && level_ok p (r_high (c_range c))) then false
  else if c_role c =? OBJECT_R_VAL then true
  else if (c_user c =? 0) || (p_nusers p <? c_user c) then false
  else
    match p_user_struct p (c_user c) with
    | None => false
    | Some (_, rng) => mls_range_contains rng (c_range c)
    end.

(** libsepol/src/context.c:35-78 (context_is_valid). *)
Definition context_is_valid (p : policy) (c : context) : bool :=
  if (c_role c =? 0) || (p_nroles p <? c_role c) then false
  else if (c_user c =? 0) || (p_nusers p <? c_user c) then false
  else if (c_type c =? 0) || (p_ntypes p <? c_type c) then false
  else if
    negb (c_role c =? OBJECT_R_VAL) &&
    negb (match p_role_struct p (c_role c) with
          | None => false
          | Some types => ebitmap_get_bit types (c_type c - 1)
          end &&
          match p_user_struct p (c_user c) with
          | None => false
          | Some (roles, _) => ebitmap_get_bit roles (c_role c - 1)
          end) then false
  else mls_context_isvalid p c.

(** libsepol/src/mls.c:509-545 (mls_setup_user_range with mls on): the low and high level given to
    the user's context, [None] for -EINVAL. [fl]/[fh] are fromcon's levels, [ul]/[uh]/[ud] the
    user's low, clearance and default levels. *)
Definition mls_setup_user_range (fl fh ul uh ud : level) : option mrange :=
  let sen :=
    if mls_level_between ud fl fh then Some ud
    else if mls_level_between fl ud uh then Some fl
    else if mls_level_between fh ul ud then Some ul
    else None in
  match sen with
  | None => None
  | Some s =>
      if mls_level_dom uh fh then Some (mkR s fh)
      else if mls_level_dom fh uh then Some (mkR s uh)
      else None
  end.

(** libsepol/src/mls.c:580-595 (translation of the categories in mls_convert_context). *)
Fixpoint convert_cats (oldp newp : policy) (l : list N) (e : ebitmap) : option ebitmap :=
  match l with
  | [] => Some e
  | i :: t =>
      match p_cat_name oldp (i + 1) with
      | None => None
      | Some nm =>
          match p_cat_find newp nm with
          | None => None
          | Some v =>
              match ebitmap_set_bit e (v - 1) true with
              | None => None
              | Some e' => convert_cats oldp newp t e'
              end
          end
      end
  end.

(** libsepol/src/mls.c:564-598 (one level of mls_convert_context). *)
Definition convert_level (oldp newp : policy) (l : level) : option level :=
  match p_sens_name oldp (l_sens l) with
  | None => None
  | Some nm =>
      match p_level_find newp nm, positive_bits (l_cat l) with
      | Some ld, Some bits =>
          match convert_cats oldp newp bits ebitmap_init with
          | None => None
          | Some e => Some (mkL (l_sens ld) e)
          end
      | _, _ => None
      end
  end.

(** libsepol/src/mls.c:552-601 (mls_convert_context). *)
Definition mls_convert_context (oldp newp : policy) (r : mrange) : option mrange :=
  if negb (p_mls oldp) then Some r
  else
    match convert_level oldp newp (r_low r), convert_level oldp newp (r_high r) with
    | Some lo, Some hi => Some (mkR lo hi)
    | _, _ => None
    end.
