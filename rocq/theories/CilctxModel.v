(** * Labelling rules of CIL: order and conflicts (cil_post.c, cil_binary.c)

    portcon, nodecon, filecon and the like name objects and give them contexts. The compiler sorts the rules of each kind and
    drops those given twice. *)
From Coq Require Import NArith List Bool.
From Verif Require Import MlsModel ContextModel.
Import ListNotations.
Local Open Scope N_scope.

(** ** Contexts *)
(** cil_internal.h:721-746 (struct cil_level, cil_levelrange, cil_context): names are those of the datums (DATUM(x)->fqn);
    different datums of a kind have different names. [lv_cats] is None if the level has no categories. *)
Record lvl := mkLv { lv_sens : list N; lv_cats : option (list (list N)) }.
(** cil_internal.h:736-746; after name resolution range, low and high are never NULL. *)
Record ctx := mkCx { cx_user : list N; cx_role : list N; cx_type : list N; cx_low : lvl; cx_high : lvl }.
(** strcmp. *)
Fixpoint strcmp (a b : list N) : comparison :=
  match a, b with
  | [], [] => Eq
  | [], _ => Lt
  | _, [] => Gt
  | x :: a', y :: b' => match x ?= y with Eq => strcmp a' b' | c => c end
  end.
(** cil_post.c:66-83 (cats_compare). The two loops: the first pair with equal names gives 0. *)
Definition cats_compare (a b : option (list (list N))) : comparison :=
  match a, b with
  | None, None => Eq
  | None, Some _ => Lt
  | Some _, None => Gt
  | Some l, Some m => if existsb (fun x => existsb (fun y => match strcmp x y with Eq => true | _ => false end) m) l then Eq else Eq
  end.
(** One comparison after the other, as the C functions do. *)
Definition then_cmp (c d : comparison) : comparison := match c with Eq => d | _ => c end.
(** cil_post.c:85-101 (level_compare). Equal pointers are equal values here and give 0 as well. *)
Definition level_compare (a b : lvl) : comparison := then_cmp (strcmp (lv_sens a) (lv_sens b)) (cats_compare (lv_cats a) (lv_cats b)).
(** cil_post.c:103-141 (range_compare, context_compare). *)
Definition context_compare (a b : ctx) : comparison :=
  then_cmp (strcmp (cx_user a) (cx_user b)) (then_cmp (strcmp (cx_role a) (cx_role b)) (then_cmp (strcmp (cx_type a) (cx_type b))
    (then_cmp (level_compare (cx_low a) (cx_low b)) (level_compare (cx_high a) (cx_high b))))).

(** ** Rules *)
(** cil_internal.h:759-876. Addresses and masks are the numbers written by their bytes in network order. *)
Inductive rule :=
| Rport (proto low high : N) (c : ctx)
| Rpkey (subnet : list N) (low high : N) (c : ctx)
| Rendport (dev : list N) (port : N) (c : ctx)
| Rnode (v6 : bool) (addr mask : N) (c : ctx)
| Rnetif (name : list N) (c packet : ctx)
| Rgenfs (fs path : list N) (ftype : N) (c : ctx)
| Rfsuse (type : N) (fs : list N) (c : ctx)
| Rfile (path : list N) (ftype : N) (c : option ctx)
| Rpirq (pirq : N) (c : ctx)
| Riomem (low high : N) (c : ctx)
| Rioport (low high : N) (c : ctx)
| Rpci (dev : N) (c : ctx)
| Rtree (path : list N) (c : ctx).

(** struct fc_data and cil_post.c:169-209 (cil_post_fc_fill_data): whether there is a meta character, the length of the stem
    and that of the whole. *)
Fixpoint fc_fill (meta : bool) (stem len : N) (path : list N) : bool * N * N :=
  match path with
  | [] => (meta, stem, len)
  | c :: p =>
      if existsb (fun x => x =? c) [46; 94; 36; 63; 42; 43; 124; 91; 40; 123] then fc_fill true stem (len + 1) p
      else if c =? 92 then
        match p with
        | [] => (meta, if meta then stem else stem + 1, len + 1)
        | _ :: p' => fc_fill meta (if meta then stem else stem + 1) (len + 1) p'
        end
      else fc_fill meta (if meta then stem else stem + 1) (len + 1) p
  end.
(** spaceship_cmp (cil_post.c:54). *)
Definition spaceship (a b : N) : comparison := a ?= b.
(** Subtraction of the numbers of [w] bits. *)
Definition minus (w a b : N) : N := (a + 2 ^ w - b) mod 2 ^ w.
(** The numbers of the flavours, to compare rules of different kinds, which does not happen: one array has rules of one kind. *)
Definition kind (r : rule) : N :=
  match r with
  | Rport _ _ _ _ => 0 | Rpkey _ _ _ _ => 1 | Rendport _ _ _ => 2 | Rnode _ _ _ _ => 3 | Rnetif _ _ _ => 4 | Rgenfs _ _ _ _ => 5
  | Rfsuse _ _ _ => 6 | Rfile _ _ _ => 7 | Rpirq _ _ => 8 | Riomem _ _ _ => 9 | Rioport _ _ _ => 10 | Rpci _ _ => 11 | Rtree _ _ => 12
  end.
(** cil_post.c:211-474 (cil_post_filecon_compare to cil_post_fsuse_compare), one function per kind. *)
Definition compar (a b : rule) : comparison :=
  match a, b with
  | Rfile p t _, Rfile p' t' _ =>
      match fc_fill false 0 0 p, fc_fill false 0 0 p' with
      | (m, s, n), (m', s', n') =>
          if m && negb m' then Lt else if m' && negb m then Gt
          else then_cmp (s ?= s') (then_cmp (n ?= n') (then_cmp (t ?= t') (strcmp p p')))
      end
  | Rpkey s l h _, Rpkey s' l' h' _ => then_cmp (strcmp s s') (then_cmp (spaceship (minus 32 h l) (minus 32 h' l')) (l ?= l'))
  | Rport q l h _, Rport q' l' h' _ => then_cmp (spaceship (minus 32 h l) (minus 32 h' l')) (then_cmp (l ?= l') (q ?= q'))
  | Rgenfs f p _ _, Rgenfs f' p' _ _ => then_cmp (strcmp f f') (strcmp p p')
  | Rnetif n _ _, Rnetif n' _ _ => strcmp n n'
  | Rendport d p _, Rendport d' p' _ => then_cmp (strcmp d d') (p ?= p')
  | Rnode v ad m _, Rnode v' ad' m' _ =>
      match v, v' with
      | false, true => Lt
      | true, false => Gt
      | _, _ => then_cmp (CompOpp (m ?= m')) (ad ?= ad')
      end
  | Rpirq n _, Rpirq n' _ => n ?= n'
  | Riomem l h _, Riomem l' h' _ => then_cmp (spaceship (minus 64 h l) (minus 64 h' l')) (l ?= l')
  | Rioport l h _, Rioport l' h' _ => then_cmp (spaceship (minus 32 h l) (minus 32 h' l')) (l ?= l')
  | Rpci d _, Rpci d' _ => d ?= d'
  | Rtree p _, Rtree p' _ => strcmp p p'
  | Rfsuse t f _, Rfsuse t' f' _ => then_cmp (t ?= t') (strcmp f f')
  | _, _ => kind a ?= kind b
  end.
(** cil_post.c:476-570 (cil_post_filecon_context_compare and so on). A filecon may have no context: then NULL is read. *)
Definition concompar (a b : rule) : res comparison :=
  match a, b with
  | Rfile _ _ c, Rfile _ _ c' => match c, c' with Some c, Some c' => ROk (context_compare c c') | _, _ => RUB end
  | Rnetif _ c d, Rnetif _ c' d' => ROk (then_cmp (context_compare c c') (context_compare d d'))
  | Rport _ _ _ c, Rport _ _ _ c' => ROk (context_compare c c')
  | Rpkey _ _ _ c, Rpkey _ _ _ c' => ROk (context_compare c c')
  | Rendport _ _ c, Rendport _ _ c' => ROk (context_compare c c')
  | Rnode _ _ _ c, Rnode _ _ _ c' => ROk (context_compare c c')
  | Rgenfs _ _ _ c, Rgenfs _ _ _ c' => ROk (context_compare c c')
  | Rfsuse _ _ c, Rfsuse _ _ c' => ROk (context_compare c c')
  | Rpirq _ c, Rpirq _ c' => ROk (context_compare c c')
  | Riomem _ _ c, Riomem _ _ c' => ROk (context_compare c c')
  | Rioport _ _ c, Rioport _ _ c' => ROk (context_compare c c')
  | Rpci _ c, Rpci _ c' => ROk (context_compare c c')
  | Rtree _ c, Rtree _ c' => ROk (context_compare c c')
  | _, _ => RUB
  end.

(** ** Duplicates *)
(** cil_post.c:2292-2326: the loop over [j]. [done] is the array before place i, [cur] what is at place i, [rest] the array from
    j on: places behind i keep what they had, and i < j when a place is read. [bad] is rc, the messages are left out. The result
    has rc, the array up to place i and the number removed. *)
Fixpoint dedup (multiple : bool) (done : list rule) (cur : rule) (conflicting removed : N) (bad : bool) (rest : list rule)
  : res (bool * list rule * N) :=
  match rest with
  | [] => ROk (bad, done ++ [cur], removed)
  | x :: rest' =>
      match compar cur x with
      | Eq =>
          match (if multiple then concompar cur x else ROk Lt) with
          | ROk Eq => dedup multiple done (if conflicting =? 0 then x else cur) conflicting (removed + 1) bad rest'
          | ROk _ => dedup multiple done cur (conflicting + 1) (removed + 1) true rest'
          | RErr => RErr
          | RUB => RUB
          end
      | _ => dedup multiple (done ++ [cur]) x 0 removed bad rest'
      end
  end.
(** cil_post.c:2277-2331 (__cil_post_process_context_rules) with [sorted], what qsort made of the array. *)
Definition process_sorted (multiple : bool) (sorted : list rule) : res (list rule) :=
  match sorted with
  | [] => ROk []
  | [x] => ROk [x]
  | x :: rest =>
      match dedup multiple [] x 0 0 false rest with
      | ROk (bad, front, removed) =>
          if bad then RErr
          else ROk (firstn (length sorted - N.to_nat removed) (front ++ skipn (length front) sorted))
      | RErr => RErr
      | RUB => RUB
      end
  end.

(** ** Ports in the policy *)
(** policydb.h:347-349, cil_binary.c:3585-3627 (cil_portcon_to_policydb): the bounds are cut to 16 bits. The numbers of the
    protocols stay those of enum cil_protocol here. *)
Definition to_policy (r : rule) : rule := match r with Rport q l h c => Rport q (l mod 2 ^ 16) (h mod 2 ^ 16) c | _ => r end.
(** What the policy has of a list of rules. *)
Definition policy_of (l : list rule) : list rule := map to_policy l.
