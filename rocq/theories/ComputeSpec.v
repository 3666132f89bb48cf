(** What label a new or relabelled object gets. *)
From Verif Require Import Base EbitmapModel EbitmapSpec MlsModel MlsSpec AvtabModel AvtabSpec ComputeModel.

(** The three kinds of request. *)
Inductive request := Create | Member | Relabel.

(** Which side a class default names. *)
Inductive side := Source | Target.
Definition pick (sd : side) (s t : context) : context := match sd with Source => s | Target => t end.

(** The class declares a default (field [f]) with code [v]. *)
Definition declares (P : cpolicy) (cls : N) (f : cdefaults -> N) (v : N) : Prop :=
  1 <= cls /\ cls <= cp_nclasses P /\ exists d, cp_class P cls = Some d /\ f d = v.
(** The class names a side for field [f]. *)
Definition side_default (P : cpolicy) (cls : N) (f : cdefaults -> N) (sd : side) : Prop :=
  declares P cls f (match sd with Source => 1 | Target => 2 end).
Definition no_side_default (P : cpolicy) (cls : N) (f : cdefaults -> N) : Prop :=
  forall sd, ~ side_default P cls f sd.

(** User: for a member request the target's; otherwise the target's if the class says so, else the source's. *)
Definition user_is (P : cpolicy) (rq : request) (s t : context) (cls u : N) : Prop :=
  match rq with
  | Member => u = c_user t
  | _ => (side_default P cls df_user Target /\ u = c_user t) \/ (~ side_default P cls df_user Target /\ u = c_user s)
  end.

(** Role and type without rules. *)
Definition role_default_is (P : cpolicy) (s t : context) (cls r : N) : Prop :=
  (exists sd, side_default P cls df_role sd /\ r = c_role (pick sd s t)) \/
  (no_side_default P cls df_role /\ ((cls = cp_process P /\ r = c_role s) \/ (cls <> cp_process P /\ r = 1))).
Definition type_default_is (P : cpolicy) (s t : context) (cls ty : N) : Prop :=
  (exists sd, side_default P cls df_type sd /\ ty = c_type (pick sd s t)) \/
  (no_side_default P cls df_type /\ ((cls = cp_process P /\ ty = c_type s) \/ (cls <> cp_process P /\ ty = c_type t))).

(** A type rule for the request in the permanent or the conditional table, giving type [ty]. *)
Definition rule_code (rq : request) : N := match rq with Create => 16 | Member => 32 | Relabel => 64 end.
Definition permanent_rule (P : cpolicy) (rq : request) (s t : context) (cls ty : N) : Prop :=
  exists n, In n (avtab_map_list (cp_te P)) /\ entry_matches (mkK (c_type s) (c_type t) cls (rule_code rq)) n = true /\ d_data (n_datum n) = ty.
Definition enabled_rule (P : cpolicy) (rq : request) (s t : context) (cls ty : N) : Prop :=
  exists n, In n (avtab_map_list (cp_cond P)) /\ entry_matches (mkK (c_type s) (c_type t) cls (rule_code rq)) n = true /\
    N.testbit (k_spec (n_key n)) 15 = true /\ d_data (n_datum n) = ty.

(** Type: a permanent rule, else an enabled conditional rule, else the default. *)
Definition type_is (P : cpolicy) (rq : request) (s t : context) (cls ty : N) : Prop :=
  permanent_rule P rq s t cls ty \/
  ((forall x, ~ permanent_rule P rq s t cls x) /\
   (enabled_rule P rq s t cls ty \/ ((forall x, ~ enabled_rule P rq s t cls x) /\ type_default_is P s t cls ty))).

(** Role: for a new object the first applicable role transition, else the default. *)
Definition role_is (P : cpolicy) (rq : request) (s t : context) (cls r : N) : Prop :=
  (rq = Create /\ exists l1 l2, cp_role_tr P = l1 ++ ((c_role s, c_type t, cls), r) :: l2 /\
     forall x, ~ In ((c_role s, c_type t, cls), x) l1) \/
  ((rq = Create -> forall x, ~ In ((c_role s, c_type t, cls), x) (cp_role_tr P)) /\ role_default_is P s t cls r).

(** Range by the class default of code [d]; codes outside 1-7 name nothing. *)
Definition range_by_code (d : N) (s t : context) (r : mrange) : Prop :=
  (d = 1 /\ r = mkR (r_low (c_range s)) (r_low (c_range s))) \/
  (d = 2 /\ r = mkR (r_high (c_range s)) (r_high (c_range s))) \/
  (d = 3 /\ r = c_range s) \/
  (d = 4 /\ r = mkR (r_low (c_range t)) (r_low (c_range t))) \/
  (d = 5 /\ r = mkR (r_high (c_range t)) (r_high (c_range t))) \/
  (d = 6 /\ r = c_range t) \/
  (d = 7 /\ l_sens (r_low (c_range s)) <= l_sens (r_high (c_range t)) /\ l_sens (r_low (c_range t)) <= l_sens (r_high (c_range s)) /\
     valid_mrange r /\
     l_sens (r_low r) = N.max (l_sens (r_low (c_range s))) (l_sens (r_low (c_range t))) /\
     l_sens (r_high r) = N.min (l_sens (r_high (c_range s))) (l_sens (r_high (c_range t))) /\
     (forall b, member (l_cat (r_low r)) b <-> member (l_cat (r_low (c_range s))) b /\ member (l_cat (r_low (c_range t))) b) /\
     (forall b, member (l_cat (r_high r)) b <-> member (l_cat (r_high (c_range s))) b /\ member (l_cat (r_high (c_range t))) b)).

(** Range of the process for a process, its low level otherwise. *)
Definition range_of_source (P : cpolicy) (s : context) (cls : N) (r : mrange) : Prop :=
  (cls = cp_process P /\ r = c_range s) \/ (cls <> cp_process P /\ r = mkR (r_low (c_range s)) (r_low (c_range s))).

(** Range: nothing without MLS; for a new object a range transition, else the class default, else as for
    relabelling; for a member the low level of the source. *)
Definition range_is (P : cpolicy) (rq : request) (s t : context) (cls : N) (r : mrange) : Prop :=
  (p_mls (cp_base P) = false /\ r = mkR (mkL 0 ebitmap_init) (mkL 0 ebitmap_init)) \/
  (p_mls (cp_base P) = true /\
   match rq with
   | Create =>
       (exists l1 l2, cp_range_tr P = l1 ++ ((c_type s, c_type t, cls), r) :: l2 /\ forall x, ~ In ((c_type s, c_type t, cls), x) l1) \/
       ((forall x, ~ In ((c_type s, c_type t, cls), x) (cp_range_tr P)) /\
        ((exists d, 1 <= d /\ d <= 7 /\ declares P cls df_range d /\ range_by_code d s t r) \/
         ((forall d, 1 <= d -> d <= 7 -> ~ declares P cls df_range d) /\ range_of_source P s cls r)))
   | Relabel => range_of_source P s cls r
   | Member => r = mkR (r_low (c_range s)) (r_low (c_range s))
   end).

(** The label. *)
Definition label_is (P : cpolicy) (rq : request) (s t : context) (cls : N) (c : context) : Prop :=
  user_is P rq s t cls (c_user c) /\ role_is P rq s t cls (c_role c) /\ type_is P rq s t cls (c_type c) /\
  range_is P rq s t cls (c_range c).

(** No two permanent rules, and no two enabled conditional rules, give different types for one request. *)
Definition unambiguous (P : cpolicy) : Prop :=
  forall rq s t cls x y,
    (permanent_rule P rq s t cls x -> permanent_rule P rq s t cls y -> x = y) /\
    (enabled_rule P rq s t cls x -> enabled_rule P rq s t cls y -> x = y).

(** The policy's ranges are canonical. *)
Definition cpolicy_canonical (P : cpolicy) : Prop :=
  policy_canonical (cp_base P) /\ forall k r, In (k, r) (cp_range_tr P) -> valid_mrange r.
