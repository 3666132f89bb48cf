(** Model of the record databases of libsemanage: database_llist.c, database_file.c, database_join.c, the entry points of
    database.c and the joined user record (user_record.c). Cells are modelled with their pointers; reading a freed cell or
    record is an outcome of its own. A failing allocation is an input of each call. *)
From Verif Require Import Base LabelModel.

(** Outcome of a step: value, failure (STATUS_ERR) or undefined behaviour. *)
Inductive dres (A : Type) := DOk (a : A) | DErr (a : A) | DUb.
Arguments DOk {A} a.
Arguments DErr {A} a.
Arguments DUb {A}.

(** database_llist.h:10-14 (cache_entry_t); no data: the record was freed. *)
Record cell (R : Type) := mkCell { c_data : option R; c_prev : option N; c_next : option N }.
Arguments mkCell {R} _ _ _.
Arguments c_data {R} _.
Arguments c_prev {R} _.
Arguments c_next {R} _.
(** database_llist.h:17-30 (dbase_llist_t) with the cells allocated; [fresh] is the next address. *)
Record llist (R : Type) := mkLl {
  heap : N -> option (cell R); fresh : N; cache : option N; cache_tail : option N; cache_sz : N; serial : Z; modified : bool }.
Arguments mkLl {R} _ _ _ _ _ _ _.
Arguments heap {R} _.
Arguments fresh {R} _.
Arguments cache {R} _.
Arguments cache_tail {R} _.
Arguments cache_sz {R} _.
Arguments serial {R} _.
Arguments modified {R} _.

Section Llist.
Context {R K : Type} (compare : R -> K -> comparison).

(** Writing a cell. *)
Definition put (h : N -> option (cell R)) (i : N) (c : option (cell R)) : N -> option (cell R) := fun j => if j =? i then c else h j.
(** database_llist.h:34-42 (dbase_llist_cache_init): the old cells are not freed. *)
Definition cache_init (db : llist R) : llist R := mkLl (heap db) (fresh db) None None 0 (-1) false.
(** database_llist.c:38-69 (dbase_llist_cache_prepend); [okm]: malloc succeeds, [okc]: the clone succeeds. *)
Definition cache_prepend (okm okc : bool) (data : R) (db : llist R) : dres (llist R) :=
  if negb okm then DErr db
  else if negb okc then DErr db
  else
    let i := fresh db in
    let h1 := put (heap db) i (Some (mkCell (Some data) None (cache db))) in
    let tl := match cache_tail db with None => Some i | t => t end in
    match cache db with
    | None => DOk (mkLl h1 (i + 1) (Some i) tl ((cache_sz db + 1) mod 2 ^ 32) (serial db) (modified db))
    | Some p =>
        match h1 p with
        | None => DUb
        | Some c => DOk (mkLl (put h1 p (Some (mkCell (c_data c) (Some i) (c_next c)))) (i + 1) (Some i) tl ((cache_sz db + 1) mod 2 ^ 32) (serial db) (modified db))
        end
    end.
(** database_llist.c:77-83, 326-333: freeing all cells from [p] on; out of fuel would be a cycle. *)
Fixpoint free_all (fuel : nat) (h : N -> option (cell R)) (p : option N) : option (N -> option (cell R)) :=
  match p with
  | None => Some h
  | Some i =>
      match fuel with
      | O => None
      | S f => match h i with None => None | Some c => match c_data c with None => None | Some _ => free_all f (put h i None) (c_next c) end end
      end
  end.
(** Enough for every chain of cells allocated so far. *)
Definition fuel_of (db : llist R) : nat := N.to_nat (fresh db) + 1.
(** database_llist.c:71-87 (dbase_llist_drop_cache): the pointers and the count stay. *)
Definition drop_cache (db : llist R) : dres (llist R) :=
  if (serial db <? 0)%Z then DOk db
  else match free_all (fuel_of db) (heap db) (cache db) with
       | None => DUb
       | Some h => DOk (mkLl h (fresh db) (cache db) (cache_tail db) (cache_sz db) (-1) false)
       end.
(** database_llist.c:89-100 (dbase_llist_set_serial); [ser] is what get_serial returns. *)
Definition set_serial (ser : Z) (db : llist R) : dres (llist R) :=
  if (ser <? 0)%Z then DErr db else DOk (mkLl (heap db) (fresh db) (cache db) (cache_tail db) (cache_sz db) ser (modified db)).
(** database_llist.c:17-35 (dbase_llist_needs_resync). *)
Definition needs_resync (ser : Z) (db : llist R) : dres (llist R * bool) :=
  if (serial db <? 0)%Z then DOk (db, true)
  else if (ser <? 0)%Z then DOk (db, true)
  else if (ser =? serial db)%Z then DOk (db, false)
  else match drop_cache db with
       | DOk db1 => DOk (mkLl (heap db1) (fresh db1) (cache db1) (cache_tail db1) (cache_sz db1) (-1) (modified db1), true)
       | DErr db1 => DErr (db1, true)
       | DUb => DUb
       end.
(** database_llist.c:114-119: the first entry with the key from [p] on. *)
Fixpoint locate (fuel : nat) (h : N -> option (cell R)) (key : K) (p : option N) : option (option N) :=
  match p with
  | None => Some None
  | Some i =>
      match fuel with
      | O => None
      | S f =>
          match h i with
          | None => None
          | Some c =>
              match c_data c with
              | None => None
              | Some r => match compare r key with Eq => Some (Some i) | _ => locate f h key (c_next c) end
              end
          end
      end
  end.
(** database_llist.c:102-126 (dbase_llist_cache_locate) after its call of the cache function. *)
Definition cache_locate (key : K) (db : llist R) : option (option N) := locate (fuel_of db) (heap db) key (cache db).
(** database_llist.c:128-147 (dbase_llist_exists). *)
Definition llist_exists (key : K) (db : llist R) : dres bool :=
  match cache_locate key db with None => DUb | Some (Some _) => DOk true | Some None => DOk false end.
(** database_llist.c:158, 186, 217: the mark that there is something to write. *)
Definition set_mod (db : llist R) : llist R := mkLl (heap db) (fresh db) (cache db) (cache_tail db) (cache_sz db) (serial db) true.
(** database_llist.c:149-165 (dbase_llist_add). *)
Definition llist_add (okm okc : bool) (data : R) (db : llist R) : dres (llist R) :=
  match cache_prepend okm okc data db with DOk db1 => DOk (set_mod db1) | DErr db1 => DErr db1 | DUb => DUb end.
(** database_llist.c:181-183, 211-213: the old record is freed first. *)
Definition replace (okc : bool) (i : N) (data : R) (db : llist R) : dres (llist R) :=
  match heap db i with
  | None => DUb
  | Some c =>
      match c_data c with
      | None => DUb
      | Some _ =>
          let with_data d := mkLl (put (heap db) i (Some (mkCell d (c_prev c) (c_next c)))) (fresh db) (cache db) (cache_tail db) (cache_sz db) (serial db) (modified db) in
          if okc then DOk (with_data (Some data)) else DErr (with_data None)
      end
  end.
(** database_llist.c:167-192 (dbase_llist_set). *)
Definition llist_set (okc : bool) (key : K) (data : R) (db : llist R) : dres (llist R) :=
  match cache_locate key db with
  | None => DUb
  | Some None => DErr db
  | Some (Some i) => match replace okc i data db with DOk db1 => DOk (set_mod db1) | r => r end
  end.
(** database_llist.c:194-223 (dbase_llist_modify). *)
Definition llist_modify (okm okc : bool) (key : K) (data : R) (db : llist R) : dres (llist R) :=
  match cache_locate key db with
  | None => DUb
  | Some None => match cache_prepend okm okc data db with DOk db1 => DOk (set_mod db1) | r => r end
  | Some (Some i) => match replace okc i data db with DOk db1 => DOk (set_mod db1) | r => r end
  end.
(** database_llist.c:225-231 (dbase_llist_count). *)
Definition llist_count (db : llist R) : N := cache_sz db.
(** database_llist.c:233-254 (dbase_llist_query): a failure without record, or the record. *)
Definition llist_query (okc : bool) (key : K) (db : llist R) : dres (option R) :=
  match cache_locate key db with
  | None => DUb
  | Some None => DErr None
  | Some (Some i) =>
      match heap db i with
      | None => DUb
      | Some c => match c_data c with None => DUb | Some r => if okc then DOk (Some r) else DErr None end
      end
  end.
(** database_llist.c:263-270: the loop; [fn] gives the sign of the handler's result; the records handed over. *)
Fixpoint iterate (fuel : nat) (h : N -> option (cell R)) (fn : R -> Z) (p : option N) (acc : list R) : dres (list R) :=
  match p with
  | None => DOk acc
  | Some i =>
      match fuel with
      | O => DUb
      | S f =>
          match h i with
          | None => DUb
          | Some c =>
              match c_data c with
              | None => DUb
              | Some r =>
                  let acc' := acc ++ [r] in
                  if (fn r <? 0)%Z then DErr acc' else if (0 <? fn r)%Z then DOk acc' else iterate f h fn (c_prev c) acc'
              end
          end
      end
  end.
(** database_llist.c:256-279 (dbase_llist_iterate). *)
Definition llist_iterate (fn : R -> Z) (db : llist R) : dres (list R) := iterate (fuel_of db) (heap db) fn (cache_tail db) [].
(** database_llist.c:288-308: the loop, [prev] the entry before [p]. *)
Fixpoint del_loop (fuel : nat) (key : K) (db : llist R) (prev p : option N) : dres (llist R) :=
  match p with
  | None => DOk db
  | Some i =>
      match fuel with
      | O => DUb
      | S f =>
          match heap db i with
          | None => DUb
          | Some c =>
              match c_data c with
              | None => DUb
              | Some r =>
                  match compare r key with
                  | Eq =>
                      let r1 := match prev with
                        | Some q => match heap db q with None => None | Some d => Some (put (heap db) q (Some (mkCell (c_data d) (c_prev d) (c_next c))), cache db) end
                        | None => Some (heap db, c_next c)
                        end in
                      match r1 with
                      | None => DUb
                      | Some (h1, hd) =>
                          let r2 := match c_next c with
                            | Some q => match h1 q with None => None | Some d => Some (put h1 q (Some (mkCell (c_data d) (c_prev c) (c_next d))), cache_tail db) end
                            | None => Some (h1, c_prev c)
                            end in
                          match r2 with
                          | None => DUb
                          | Some (h2, tl) => DOk (mkLl (put h2 i None) (fresh db) hd tl ((cache_sz db + (2 ^ 32 - 1)) mod 2 ^ 32) (serial db) true)
                          end
                      end
                  | _ => del_loop f key db (Some i) (c_next c)
                  end
              end
          end
      end
  end.
(** database_llist.c:281-311 (dbase_llist_del). *)
Definition llist_del (key : K) (db : llist R) : dres (llist R) := del_loop (fuel_of db) key db None (cache db).
(** database_llist.c:313-341 (dbase_llist_clear). *)
Definition llist_clear (ser : Z) (db : llist R) : dres (llist R) :=
  match set_serial ser db with
  | DOk db1 =>
      match (if (0 <=? serial db)%Z then free_all (fuel_of db1) (heap db1) (cache db1) else Some (heap db1)) with
      | None => DUb
      | Some h => DOk (mkLl h (fresh db1) None None 0 (serial db1) true)
      end
  | r => r
  end.
(** database_llist.c:357-364: the loop; [cnt] is the size of the array, [okc i]: the i-th clone succeeds. Writing beyond the array is undefined. *)
Fixpoint list_loop (fuel : nat) (okc : nat -> bool) (cnt : N) (h : N -> option (cell R)) (p : option N) (acc : list R) : dres (list R) :=
  match p with
  | None => DOk acc
  | Some i =>
      match fuel with
      | O => DUb
      | S f =>
          match h i with
          | None => DUb
          | Some c =>
              match c_data c with
              | None => DUb
              | Some r =>
                  if cnt <=? N.of_nat (length acc) then DUb
                  else if okc (length acc) then list_loop f okc cnt h (c_prev c) (acc ++ [r]) else DErr []
              end
          end
      end
  end.
(** database_llist.c:343-376 (dbase_llist_list); [okm]: calloc succeeds. *)
Definition llist_list (okm : bool) (okc : nat -> bool) (db : llist R) : dres (list R) :=
  if 0 <? cache_sz db then if okm then list_loop (fuel_of db) okc (cache_sz db) (heap db) (cache_tail db) [] else DErr []
  else DOk [].

(** ** Backed by a file *)
(** database_file.c:66-92: the records that are parsed one after the other; [oks]: allocation of each. *)
Fixpoint prepend_all (oks : nat -> bool * bool) (n : nat) (l : list R) (db : llist R) : dres (llist R) :=
  match l with
  | [] => DOk db
  | r :: l' => match cache_prepend (fst (oks n)) (snd (oks n)) r db with DOk db1 => prepend_all oks (S n) l' db1 | x => x end
  end.
(** After the label err (database_file.c:99-107): the cache is dropped. *)
Definition fail_cache (db : llist R) : dres (llist R) := match drop_cache db with DOk d => DErr d | r => r end.
(** database_file.c:40-108 (dbase_file_cache): [src] the records of the file and whether parsing reaches its end, [ser1] and
    [ser2] what the two calls of get_serial return. *)
Definition file_cache (ser1 ser2 : Z) (src : list R * bool) (oks : nat -> bool * bool) (db : llist R) : dres (llist R) :=
  match needs_resync ser1 db with
  | DUb => DUb
  | DErr (d, _) => DErr d
  | DOk (d, false) => DOk d
  | DOk (d, true) =>
      match set_serial ser2 (cache_init d) with
      | DOk d1 =>
          match prepend_all oks 0 (fst src) d1 with
          | DOk d2 => if snd src then DOk d2 else fail_cache d2
          | DErr d2 => fail_cache d2
          | DUb => DUb
          end
      | DErr d1 => fail_cache d1
      | DUb => DUb
      end
  end.
(** database_file.c:111-162 (dbase_file_flush): the new contents of the file, [None] if they were not completely written.
    [wr]: opening, printing and closing succeed. *)
Definition file_flush (wr : bool * bool * bool) (file : option (list R)) (db : llist R) : dres (llist R) * option (list R) :=
  if negb (modified db) then (DOk db, file)
  else
    let '(wo, wp, wc) := wr in
    if negb wo then (DErr db, file)
    else match iterate (fuel_of db) (heap db) (fun _ => 0%Z) (cache_tail db) [] with
         | DOk l =>
             let clean := mkLl (heap db) (fresh db) (cache db) (cache_tail db) (cache_sz db) (serial db) false in
             if negb wp then (DErr db, None) else if wc then (DOk clean, Some l) else (DErr clean, None)
         | _ => (DUb, None)
         end.

(** ** Histories *)
(** The calls of the method table inside one transaction. *)
Inductive dop :=
| OAdd (okm okc : bool) (r : R)
| OSet (okc : bool) (k : K) (r : R)
| OModify (okm okc : bool) (k : K) (r : R)
| ODel (k : K)
| OClear
| OQuery (okc : bool) (k : K)
| OExists (k : K)
| OCount
| OIterate (fn : R -> Z)
| OList (okm : bool) (okc : nat -> bool).
(** What a call reports. *)
Inductive dresp := RDone | RFail | RRec (r : R) | RBool (b : bool) | RNum (n : N) | RSeen (failed : bool) (l : list R) | RArr (l : list R).
(** database_llist.c: the method called; nothing is answered after undefined behaviour. *)
Definition apply_op (ser : Z) (o : dop) (db : llist R) : option (llist R * dresp) :=
  let upd (x : dres (llist R)) := match x with DOk d => Some (d, RDone) | DErr d => Some (d, RFail) | DUb => None end in
  match o with
  | OAdd okm okc r => upd (llist_add okm okc r db)
  | OSet okc k r => upd (llist_set okc k r db)
  | OModify okm okc k r => upd (llist_modify okm okc k r db)
  | ODel k => upd (llist_del k db)
  | OClear => upd (llist_clear ser db)
  | OQuery okc k => match llist_query okc k db with DOk (Some r) => Some (db, RRec r) | DOk None => None | DErr _ => Some (db, RFail) | DUb => None end
  | OExists k => match llist_exists k db with DOk b => Some (db, RBool b) | DErr _ => Some (db, RFail) | DUb => None end
  | OCount => Some (db, RNum (llist_count db))
  | OIterate fn => match llist_iterate fn db with DOk l => Some (db, RSeen false l) | DErr l => Some (db, RSeen true l) | DUb => None end
  | OList okm okc => match llist_list okm okc db with DOk l => Some (db, RArr l) | DErr _ => Some (db, RFail) | DUb => None end
  end.
(** database.c:24-85 (enter_ro, enter_rw) and the entry points behind them: the cache is brought up to date, then the method runs.
    Locks and the check for a transaction are not modelled. *)
Definition call (ser : Z) (src : list R * bool) (o : dop) (db0 : llist R) : option (llist R * dresp) :=
  match file_cache ser ser src (fun _ => (true, true)) db0 with
  | DUb => None
  | DErr db => Some (db, RFail)
  | DOk db => apply_op ser o db
  end.
(** A history and its answers. *)
Fixpoint calls (ser : Z) (src : list R * bool) (l : list dop) (db : llist R) : option (llist R * list dresp) :=
  match l with
  | [] => Some (db, [])
  | o :: l' =>
      match call ser src o db with
      | None => None
      | Some (d, x) => match calls ser src l' d with None => None | Some (d', xs) => Some (d', x :: xs) end
      end
  end.
End Llist.
Arguments dop R K : clear implicits.
Arguments dresp R : clear implicits.

(** ** The joined user database *)
(** user_base_record.c, libsepol/src/user_record.c:9-24: name, MLS level and range, roles. *)
Record ubase := mkUb { ub_name : list N; ub_level : option (list N); ub_range : option (list N); ub_roles : list (list N) }.
(** user_extra_record.c:25-31. *)
Record uextra := mkUe { ue_name : list N; ue_prefix : list N }.
(** user_record.c:26-30. *)
Record user := mkU { u_name : list N; u_base : ubase; u_extra : uextra }.
(** user_base_record.c:36-41 (semanage_user_base_compare). *)
Definition ub_compare (u : ubase) (k : list N) : comparison := scmp (ub_name u) k.
(** user_extra_record.c:49-57 (semanage_user_extra_compare). *)
Definition ue_compare (u : uextra) (k : list N) : comparison := scmp (ue_name u) k.
(** user_record.c:64-71 (semanage_user_compare). *)
Definition u_compare (u : user) (k : list N) : comparison := scmp (u_name u) k.
(** user_record.c:336-337: the prefix of a user without extra record, "user". *)
Definition user_prefix : list N := [117; 115; 101; 114].
(** user_record.c:96-119 (semanage_user_set_name). *)
Definition user_set_name (u : user) (n : list N) : user :=
  mkU n (mkUb n (ub_level (u_base u)) (ub_range (u_base u)) (ub_roles (u_base u))) (mkUe n (ue_prefix (u_extra u))).
(** user_record.c:230-259 (semanage_user_clone). *)
Definition user_clone (u : user) : user := user_set_name u (u_name u).
(** user_record.c:275-334 (semanage_user_join). *)
Definition user_join (r1 : option ubase) (r2 : option uextra) : option user :=
  let name := match r1, r2 with Some b, _ => Some (ub_name b) | None, Some e => Some (ue_name e) | None, None => None end in
  match name with
  | None => None
  | Some n =>
      let b := match r1 with Some b => b | None => mkUb n None None [] end in
      let e := match r2 with Some e => e | None => mkUe n user_prefix end in
      Some (user_set_name (mkU n b e) n)
  end.
(** user_record.c:336-364 (semanage_user_split). *)
Definition user_split (u : user) : ubase * uextra := (u_base u, u_extra u).

(** database_join.c:84-130: the loop; both arrays are sorted. Allocation succeeds here (user_record.c:331 reads the name of a
    NULL record after a failure). *)
Fixpoint merge_loop (fuel : nat) (l1 : list ubase) (l2 : list uextra) (acc : list user) : option (list user) :=
  match l1, l2 with
  | [], [] => Some acc
  | _, _ =>
      match fuel with
      | O => None
      | S f =>
          let rc := match l1, l2 with
            | [], _ => Lt
            | _, [] => Gt
            | a :: _, b :: _ => ue_compare b (ub_name a)
            end in
          match rc with
          | Lt => match user_join None (hd_error l2) with Some u => merge_loop f l1 (tl l2) (acc ++ [user_clone u]) | None => None end
          | Gt => match user_join (hd_error l1) None with Some u => merge_loop f (tl l1) l2 (acc ++ [user_clone u]) | None => None end
          | Eq => match user_join (hd_error l1) (hd_error l2) with Some u => merge_loop f (tl l1) (tl l2) (acc ++ [user_clone u]) | None => None end
          end
      end
  end.
(** The three databases. *)
Record jdb := mkJ { j_users : llist user; j_base : llist ubase; j_extra : llist uextra }.
(** All allocations succeed. *)
Definition fine : nat -> bool * bool := fun _ => (true, true).
(** database_join.c:39-162 (dbase_join_cache): [src1], [src2] what the files behind the halves contain; [sort1], [sort2] is
    qsort. *)
Definition join_cache (sort1 : list ubase -> list ubase) (sort2 : list uextra -> list uextra) (ser : Z) (src1 : list ubase * bool) (src2 : list uextra * bool) (j : jdb) : dres jdb :=
  match needs_resync ser (j_users j) with
  | DUb => DUb
  | DErr (d, _) => DErr (mkJ d (j_base j) (j_extra j))
  | DOk (d, false) => DOk (mkJ d (j_base j) (j_extra j))
  | DOk (d, true) =>
      let fail d b e := match drop_cache d with DOk d' => DErr (mkJ d' b e) | _ => DUb end in
      match set_serial ser (cache_init d) with
      | DUb => DUb
      | DErr d1 => fail d1 (j_base j) (j_extra j)
      | DOk d1 =>
          match file_cache ser ser src1 fine (j_base j) with
          | DUb => DUb
          | DErr b => fail d1 b (j_extra j)
          | DOk b =>
              match file_cache ser ser src2 fine (j_extra j) with
              | DUb => DUb
              | DErr e => fail d1 b e
              | DOk e =>
                  match llist_list true (fun _ => true) b, llist_list true (fun _ => true) e with
                  | DOk l1, DOk l2 =>
                      let l1' := if 1 <? N.of_nat (length l1) then sort1 l1 else l1 in
                      let l2' := if 1 <? N.of_nat (length l2) then sort2 l2 else l2 in
                      match merge_loop (length l1' + length l2') l1' l2' [] with
                      | None => DUb
                      | Some us =>
                          match prepend_all fine 0 us d1 with
                          | DOk d2 => match set_serial ser d2 with DOk d3 => DOk (mkJ d3 b e) | DErr d3 => fail d3 b e | DUb => DUb end
                          | DErr d2 => fail d2 b e
                          | DUb => DUb
                          end
                      end
                  | _, _ => DUb
                  end
              end
          end
      end
  end.
(** database_join.c:194-216: every record is split and its parts added. *)
Fixpoint split_loop (fuel : nat) (h : N -> option (cell user)) (p : option N) (b : llist ubase) (e : llist uextra) : dres (llist ubase * llist uextra) :=
  match p with
  | None => DOk (b, e)
  | Some i =>
      match fuel with
      | O => DUb
      | S f =>
          match h i with
          | None => DUb
          | Some c =>
              match c_data c with
              | None => DUb
              | Some u =>
                  let (r1, r2) := user_split u in
                  match llist_add true true r1 b, llist_add true true r2 e with
                  | DOk b', DOk e' => split_loop f h (c_prev c) b' e'
                  | _, _ => DUb
                  end
              end
          end
      end
  end.
(** database_join.c:165-232 (dbase_join_flush). *)
Definition join_flush (ser : Z) (j : jdb) : dres jdb :=
  if negb (modified (j_users j)) then DOk j
  else
    match llist_clear ser (j_base j) with
    | DUb => DUb
    | DErr b => DErr (mkJ (j_users j) b (j_extra j))
    | DOk b =>
        match llist_clear ser (j_extra j) with
        | DUb => DUb
        | DErr e => DErr (mkJ (j_users j) b e)
        | DOk e =>
            match split_loop (fuel_of (j_users j)) (heap (j_users j)) (cache_tail (j_users j)) b e with
            | DOk (b', e') =>
                let u := j_users j in
                DOk (mkJ (mkLl (heap u) (fresh u) (cache u) (cache_tail u) (cache_sz u) (serial u) false) b' e')
            | _ => DUb
            end
        end
    end.
(** database.c:24-85: one call of the user interface; the join is brought up to date, then the method runs on it. *)
Definition jcall (sort1 : list ubase -> list ubase) (sort2 : list uextra -> list uextra) (ser : Z) (src1 : list ubase * bool) (src2 : list uextra * bool)
    (o : dop user (list N)) (j0 : jdb) : option (jdb * dresp user) :=
  match join_cache sort1 sort2 ser src1 src2 j0 with
  | DUb => None
  | DErr j => Some (j, RFail)
  | DOk j => match apply_op u_compare ser o (j_users j) with Some (d, x) => Some (mkJ d (j_base j) (j_extra j), x) | None => None end
  end.
(** A transaction of such calls. *)
Fixpoint jcalls (sort1 : list ubase -> list ubase) (sort2 : list uextra -> list uextra) (ser : Z) (src1 : list ubase * bool) (src2 : list uextra * bool)
    (l : list (dop user (list N))) (j : jdb) : option (jdb * list (dresp user)) :=
  match l with
  | [] => Some (j, [])
  | o :: l' =>
      match jcall sort1 sort2 ser src1 src2 o j with
      | None => None
      | Some (j1, x) => match jcalls sort1 sort2 ser src1 src2 l' j1 with None => None | Some (j2, xs) => Some (j2, x :: xs) end
      end
  end.
