(** Model of file name transitions (libsepol/src/policydb.c, write.c, expand.c): the table kept in a policy, the insertion of one rule and
    the two binary formats. Names are lists of characters without the terminating NUL. The hash table is that of [HashtabModel]; a value is the
    list of data of a key (filename_trans_datum_t, libsepol/include/sepol/policydb/policydb.h:141-146), first to last. Allocations succeed;
    files are memory as in [CodecModel]. *)
From Verif Require Import Base EbitmapModel AvtabModel HashtabModel AssertModel CodecModel.

(** filename_trans_key_t, libsepol/include/sepol/policydb/policydb.h:134-139. *)
Record fkey := mkFK { fk_ttype : N; fk_tclass : N; fk_name : list N }.
(** filename_trans_datum_t: the source types (bit of a type is its value less one) and the type of the new file. *)
Notation fdatum := (ebitmap * N)%type (only parsing).
(** policydb_t: filename_trans and filename_trans_count (uint32_t). *)
Record ftable := mkFT { ft_tab : htab fkey (list fdatum); ft_count : N }.

(** libsepol/src/policydb.c:825-830 (partial_name_hash, on unsigned long). *)
Definition partial_name_hash (c prev : N) : N := ((prev + N.shiftl c 4 + N.shiftr c 4) * 11) mod 18446744073709551616.
(** libsepol/src/policydb.c:842-845. *)
Fixpoint name_hash (h : N) (s : list N) : N := match s with [] => h | c :: r => name_hash (partial_name_hash c h) r end.
(** libsepol/src/policydb.c:832-847 (filenametr_hash). *)
Definition filenametr_hash (size : N) (k : fkey) : N := N.land (name_hash (N.lxor (fk_ttype k) (fk_tclass k)) (fk_name k)) (size - 1).
(** libsepol/src/policydb.c:849-867 (filenametr_cmp). *)
Definition filenametr_cmp (a b : fkey) : comparison :=
  match N.compare (fk_ttype a) (fk_ttype b) with
  | Eq => match N.compare (fk_tclass a) (fk_tclass b) with Eq => symcmp (fk_name a) (fk_name b) | c => c end
  | c => c
  end.

(** libsepol/src/policydb.c:933 (hashtab_create of policydb_init). *)
Definition ft_init : ftable := mkFT (hashtab_create 1024) 0.
(** hashtab_search on the table. *)
Definition ft_search (t : ftable) (k : fkey) : option (list fdatum) := hashtab_search filenametr_hash filenametr_cmp (ft_tab t) k.
(** Writing through the pointer to the data of a key (libsepol/src/policydb.c:2626, 2663): the entry keeps its place. *)
Definition ft_put (h : htab fkey (list fdatum)) (k : fkey) (d : list fdatum) : htab fkey (list fdatum) :=
  mkH (map (map (fun e : fkey * list fdatum => match filenametr_cmp k (fst e) with Eq => (fst e, d) | _ => e end)) (h_slots h)) (h_nel h).
(** hashtab_insert on the table. *)
Definition ft_add (h : htab fkey (list fdatum)) (k : fkey) (d : list fdatum) : option (htab fkey (list fdatum)) :=
  match hashtab_insert filenametr_hash filenametr_cmp h k d true true with (h', HOk) => Some h' | _ => None end.

(** stype - 1 (uint32_t). *)
Definition pred32 (x : N) : N := wrap32 (x + 4294967295).
(** Result of the walk over the data: the source type is there, with this type; or the data with a datum for [otype] at the place where the
    walk stops, and whether setting the bit has failed. *)
Inductive fwalk := FPresent (otype : N) | FPlaced (d : list fdatum) (ok : bool).
(** ebitmap_set_bit in place: a refused bit leaves the bitmap as it is. *)
Definition set_in_place (e : ebitmap) (b : N) : ebitmap * bool := match ebitmap_set_bit e b true with Some e' => (e', true) | None => (e, false) end.
(** libsepol/src/policydb.c:2605-2626, 2663 (the walk, the new datum and the bit). *)
Fixpoint ft_walk (stype otype : N) (d : list fdatum) : fwalk :=
  match d with
  | [] => let (e, ok) := set_in_place ebitmap_init (pred32 stype) in FPlaced [(e, otype)] ok
  | (e, o) :: r =>
      if ebitmap_get_bit e (pred32 stype) then FPresent o
      else if o =? otype then let (e', ok) := set_in_place e (pred32 stype) in FPlaced ((e', o) :: r) ok
      else match ft_walk stype otype r with FPlaced r' ok => FPlaced ((e, o) :: r') ok | w => w end
  end.
(** Results of policydb_filetrans_insert: 0, SEPOL_EEXIST with *present_otype, or another error. *)
Inductive fres := FAdded | FExists (otype : N) | FFailed.
(** libsepol/src/policydb.c:2591-2664 (policydb_filetrans_insert). The count goes up before the bit is set. *)
Definition filetrans_insert (t : ftable) (stype : N) (k : fkey) (otype : N) : ftable * fres :=
  let place d ok (tab : option (htab fkey (list fdatum))) :=
    match tab with
    | None => (t, FFailed)
    | Some h => (mkFT h (wrap32 (ft_count t + 1)), if ok : bool then FAdded else FFailed)
    end in
  match ft_search t k with
  | Some d => match ft_walk stype otype d with FPresent o => (t, FExists o) | FPlaced d' ok => place d' ok (Some (ft_put (ft_tab t) k d')) end
  | None => match ft_walk stype otype [] with FPresent o => (t, FExists o) | FPlaced d' ok => place d' ok (ft_add (ft_tab t) k d') end
  end.

(** libsepol/src/expand.c:1410-1442 (expand_filename_trans_helper, types already mapped): a duplicate is ignored, a conflict or an error is
    reported. *)
Definition expand_helper (t : ftable) (stype : N) (k : fkey) (otype : N) : option ftable :=
  match filetrans_insert t stype k otype with
  | (t', FAdded) => Some t'
  | (t', FExists o) => if o =? otype then Some t' else None
  | (_, FFailed) => None
  end.
(** A rule with its types expanded (filename_trans_rule_t): source types, target types, RULE_SELF, class, name, new type. *)
Record frule := mkFR { fr_stypes : ebitmap; fr_ttypes : ebitmap; fr_self : bool; fr_tclass : N; fr_name : list N; fr_otype : N }.
(** Running the helper over a list of (source, target) bits. *)
Fixpoint expand_pairs (r : frule) (l : list (N * N)) (t : ftable) : option ftable :=
  match l with
  | [] => Some t
  | (i, j) :: l' =>
      match expand_helper t (i + 1) (mkFK (j + 1) (fr_tclass r) (fr_name r)) (fr_otype r) with Some t' => expand_pairs r l' t' | None => None end
  end.
(** libsepol/src/expand.c:1470-1487 (the pairs of bits, in order). *)
Definition rule_pairs (r : frule) : list (N * N) :=
  flat_map (fun i => map (fun j => (i, j)) (bits (fr_ttypes r)) ++ (if fr_self r then [(i, i)] else [])) (bits (fr_stypes r)).
(** libsepol/src/expand.c:1444-1495 (expand_filename_trans). The expansion of the type sets is in [ExpandModel]. *)
Fixpoint expand_filename_trans (l : list frule) (t : ftable) : option ftable :=
  match l with
  | [] => Some t
  | r :: l' => match expand_pairs r (rule_pairs r) t with Some t' => expand_filename_trans l' t' | None => None end
  end.

(** libsepol/src/services.c:1764-1788 (str_read): the bytes are taken as a C string, so up to the first NUL. *)
Fixpoint cstring (s : list N) : list N := match s with [] => [] | c :: r => if c =? 0 then [] else c :: cstring r end.
(** libsepol/src/services.c:1764-1788 (str_read; the length is a uint32_t, so it is not saturated as a size_t). *)
Definition str_read (len : N) (bs : list N) : option (list N * list N) :=
  if (len =? 0) || (N.of_nat (length bs) <? len) then None
  else Some (cstring (firstn (N.to_nat len) bs), skipn (N.to_nat len) bs).

(** libsepol/src/policydb.c:2666-2710 (filename_trans_read_one_compat). *)
Definition read_one_compat (t : ftable) (bs : list N) : option (ftable * list N) :=
  get len, b1 <- get32 bs;
  get name, b2 <- str_read len b1;
  get stype, b3 <- get32 b2;
  get ttype, b4 <- get32 b3;
  get tclass, b5 <- get32 b4;
  get otype, b6 <- get32 b5;
  if stype =? 0 then None
  else match filetrans_insert t stype (mkFK ttype tclass name) otype with
       | (_, FFailed) => None
       | (t', _) => Some (t', b6)
       end.

(** libsepol/src/policydb.c:2712-2740 (filename_trans_check_datum; true: rc = 0). *)
Fixpoint check_datum (stypes otypes : ebitmap) (d : list fdatum) : bool :=
  match d with
  | [] => true
  | (e, o) :: r =>
      if ebitmap_get_bit otypes o then false
      else match ebitmap_set_bit otypes o true with
           | None => false
           | Some otypes' => if ebitmap_match_any stypes e then false else check_datum (ebitmap_union stypes e) otypes' r
           end
  end.
(** libsepol/src/policydb.c:2773-2795 (one datum). *)
Definition read_datum (bs : list N) : option (fdatum * list N) :=
  get e, b1 <- ebitmap_read bs; get o, b2 <- get32 b1; Some ((e, o), b2).
(** libsepol/src/policydb.c:2742-2823 (filename_trans_read_one). *)
Definition read_one (t : ftable) (bs : list N) : option (ftable * list N) :=
  get len, b1 <- get32 bs;
  get name, b2 <- str_read len b1;
  get ttype, b3 <- get32 b2;
  get tclass, b4 <- get32 b3;
  get ndatum, b5 <- get32 b4;
  if ndatum =? 0 then None
  else
    get d, b6 <- read_n read_datum (rounds ndatum b5) b5;
    if (1 <? ndatum) && negb (check_datum ebitmap_init ebitmap_init d) then None
    else match ft_add (ft_tab t) (mkFK ttype tclass name) d with
         | None => None
         | Some h => Some (mkFT h (fold_left (fun c e => wrap32 (c + ebitmap_cardinality (fst e))) d (ft_count t)), b6)
         end.
(** The loops of filename_trans_read. *)
Fixpoint read_rounds (one : ftable -> list N -> option (ftable * list N)) (n : nat) (t : ftable) (bs : list N) : option (ftable * list N) :=
  match n with O => Some (t, bs) | S m => get t', b <- one t bs; read_rounds one m t' b end.
(** libsepol/src/policydb.c:2825-2850 (filename_trans_read, into the table of a new policy); POLICYDB_VERSION_COMP_FTRANS is 33
    (libsepol/include/sepol/policydb/policydb.h:761). The number of rounds is capped as in [CodecModel.rounds]. *)
Definition filename_trans_read (vers : N) (bs : list N) : option (ftable * list N) :=
  get nel, b <- get32 bs; read_rounds (if vers <? 33 then read_one_compat else read_one) (rounds nel b) ft_init b.

(** libsepol/src/write.c:592-608 (one entry). *)
Definition write_compat_entry (k : fkey) (o bit : N) : list N :=
  put32 (N.of_nat (length (fk_name k))) ++ fk_name k ++ put32 (wrap32 (bit + 1)) ++ put32 (fk_ttype k) ++ put32 (fk_tclass k) ++ put32 o.
(** libsepol/src/write.c:580-614 (filename_write_one_compat). *)
Definition write_one_compat (x : fkey * list fdatum) : list N :=
  concat (map (fun d : fdatum => concat (map (write_compat_entry (fst x) (snd d)) (bits (fst d)))) (snd x)).
(** libsepol/src/write.c:616-662 (filename_write_one). *)
Definition write_one (x : fkey * list fdatum) : list N :=
  put32 (N.of_nat (length (fk_name (fst x)))) ++ fk_name (fst x) ++ put32 (fk_ttype (fst x)) ++ put32 (fk_tclass (fst x)) ++
  put32 (wrap32 (N.of_nat (length (snd x)))) ++ write_all_of (fun d : fdatum => ebitmap_write (fst d) ++ put32 (snd d)) (snd x).
(** libsepol/src/write.c:664-690 (filename_trans_write); POLICYDB_VERSION_FILENAME_TRANS is 25 (policydb.h:752). Entries in the order of
    hashtab_map. *)
Definition filename_trans_write (vers : N) (t : ftable) : list N :=
  if vers <? 25 then []
  else if vers <? 33 then put32 (ft_count t) ++ concat (map write_one_compat (concat (h_slots (ft_tab t))))
  else put32 (h_nel (ft_tab t)) ++ concat (map write_one (concat (h_slots (ft_tab t)))).
