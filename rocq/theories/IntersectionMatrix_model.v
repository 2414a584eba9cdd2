(** Model of src/core/geom/intersection_matrix.rs, dimension.rs, location.rs
    and position.rs. *)
From Coq Require Import ZArith Bool List String Ascii.
From Verif Require Import Base.
Import ListNotations.
Open Scope Z_scope.

(** A Rust [String] as its list of [char]s (Unicode code points). *)
Definition rstring := list Z.
(** Byte length of a code point in UTF-8, and [String::len]. *)
Definition utf8_len (c : Z) : nat :=
  if c <? 128 then 1 else if c <? 2048 then 2 else if c <? 65536 then 3 else 4.
Definition str_len (s : rstring) : nat := fold_right (fun c n => (utf8_len c + n)%nat) 0%nat s.
(** A Rust string literal. *)
Definition str (s : string) : rstring := map (fun a => Z.of_nat (nat_of_ascii a)) (list_ascii_of_string s).
(** [char::to_ascii_uppercase]. *)
Definition to_ascii_uppercase (c : Z) : Z := if (97 <=? c) && (c <=? 122) then c - 32 else c.

(** location.rs 9-26. *)
Definition INTERIOR : Z := 0.
Definition BOUNDARY : Z := 1.
Definition EXTERIOR : Z := 2.
Definition LOC_NONE : Z := -1.
(** location.rs 35-43: [to_location_symbol]. *)
Definition to_location_symbol (v : Z) : option Z :=
  if v =? EXTERIOR then Some 101 else if v =? BOUNDARY then Some 98
  else if v =? INTERIOR then Some 105 else if v =? LOC_NONE then Some 45 else None.

(** position.rs 5-11, 17-25: [opposite]. *)
Definition POS_ON : Z := 0.
Definition POS_LEFT : Z := 1.
Definition POS_RIGHT : Z := 2.
Definition opposite (p : Z) : Z :=
  if p =? POS_LEFT then POS_RIGHT else if p =? POS_RIGHT then POS_LEFT else p.

(** dimension.rs 18-73: the dimension values and their symbols. *)
Definition dP : Z := 0.
Definition dL : Z := 1.
Definition dA : Z := 2.
Definition dFALSE : Z := -1.
Definition dTRUE : Z := -2.
Definition dDONTCARE : Z := -3.
Definition SYM_FALSE : Z := 70.
Definition SYM_TRUE : Z := 84.
Definition SYM_DONTCARE : Z := 42.
Definition SYM_P : Z := 48.
Definition SYM_L : Z := 49.
Definition SYM_A : Z := 50.
(** dimension.rs 85-95: [to_dimension_symbol]. *)
Definition to_dimension_symbol (v : Z) : option Z :=
  if v =? dFALSE then Some SYM_FALSE else if v =? dTRUE then Some SYM_TRUE
  else if v =? dDONTCARE then Some SYM_DONTCARE else if v =? dP then Some SYM_P
  else if v =? dL then Some SYM_L else if v =? dA then Some SYM_A else None.
(** dimension.rs 107-117: [to_dimension_value]. *)
Definition to_dimension_value (c : Z) : option Z :=
  let u := to_ascii_uppercase c in
  if u =? SYM_FALSE then Some dFALSE else if u =? SYM_TRUE then Some dTRUE
  else if u =? SYM_DONTCARE then Some dDONTCARE else if u =? SYM_P then Some dP
  else if u =? SYM_L then Some dL else if u =? SYM_A then Some dA else None.

(** intersection_matrix.rs 47-52: [matrix: [[i32; 3]; 3]], first index the
    location in geometry A, second in geometry B. *)
Record IM := mkIM { ii : Z; ib : Z; ie : Z; bi : Z; bb : Z; be : Z; ei : Z; eb : Z; ee : Z }.
(** [self.matrix[r][c]], read and write; an index above 2 panics. *)
Definition im_get (m : IM) (r c : nat) : res Z :=
  match r, c with
  | 0, 0 => Ok (ii m) | 0, 1 => Ok (ib m) | 0, 2 => Ok (ie m)
  | 1, 0 => Ok (bi m) | 1, 1 => Ok (bb m) | 1, 2 => Ok (be m)
  | 2, 0 => Ok (ei m) | 2, 1 => Ok (eb m) | 2, 2 => Ok (ee m)
  | _, _ => Panic
  end%nat.
Definition im_set (m : IM) (r c : nat) (v : Z) : res IM :=
  let '(mkIM a b c' d e f g h i) := m in
  match r, c with
  | 0, 0 => Ok (mkIM v b c' d e f g h i) | 0, 1 => Ok (mkIM a v c' d e f g h i)
  | 0, 2 => Ok (mkIM a b v d e f g h i) | 1, 0 => Ok (mkIM a b c' v e f g h i)
  | 1, 1 => Ok (mkIM a b c' d v f g h i) | 1, 2 => Ok (mkIM a b c' d e v g h i)
  | 2, 0 => Ok (mkIM a b c' d e f v h i) | 2, 1 => Ok (mkIM a b c' d e f g v i)
  | 2, 2 => Ok (mkIM a b c' d e f g h v)
  | _, _ => Panic
  end%nat.

(** intersection_matrix.rs 59-63: [default]. *)
Definition im_default : IM :=
  mkIM dFALSE dFALSE dFALSE dFALSE dFALSE dFALSE dFALSE dFALSE dFALSE.
(** intersection_matrix.rs 83-104: [new_from_intersection_matrix]. *)
Definition new_from_intersection_matrix (o : IM) : IM :=
  mkIM (ii o) (ib o) (ie o) (bi o) (bb o) (be o) (ei o) (eb o) (ee o).
(** intersection_matrix.rs 245-254, 268-275:
    [set_at_least_row_column_dimension], [.._if_valid]. *)
Definition set_at_least (m : IM) (r c : nat) (v : Z) : res IM :=
  x <- im_get m r c ;; if x <? v then im_set m r c v else Ok m.
(** intersection_matrix.rs 113-119: [add]. *)
Definition im_add (m im : IM) : res IM :=
  forN 3 0 m (fun i m => forN 3 0 m (fun j m => v <- im_get im i j ;; set_at_least m i j v)).
(** intersection_matrix.rs 129-134: [is_true]. *)
Definition is_true (v : Z) : bool := if (v >=? 0) || (v =? dTRUE) then true else false.
(** intersection_matrix.rs 147-171: [matches_i32_char]. *)
Definition matches_i32_char (v sym : Z) : bool :=
  if sym =? SYM_DONTCARE then true
  else if (sym =? SYM_TRUE) && ((v >=? 0) || (v =? dTRUE)) then true
  else if (sym =? SYM_FALSE) && (v =? dFALSE) then true
  else if (sym =? SYM_P) && (v =? dP) then true
  else if (sym =? SYM_L) && (v =? dL) then true
  else if (sym =? SYM_A) && (v =? dA) then true
  else false.
(** intersection_matrix.rs 213-231: [set_string]. *)
Definition set_string (m : IM) (s : rstring) : res IM :=
  forN (str_len s) 0 m (fun i m =>
    match nth_error s i with
    | Some ch =>
        match to_dimension_value ch with
        | Some v => im_set m (i / 3) (i mod 3) v
        | None => Ok m
        end
    | None => Ok m
    end).
(** intersection_matrix.rs 71-75: [new_with_elements]. *)
Definition new_with_elements (s : rstring) : res IM := set_string im_default s.
(** intersection_matrix.rs 287-306: [set_at_least_string]. *)
Definition set_at_least_string (m : IM) (s : rstring) : res IM :=
  forN (str_len s) 0 m (fun i m =>
    match nth_error s i with
    | Some ch =>
        match to_dimension_value ch with
        | Some v => set_at_least m (i / 3) (i mod 3) v
        | None => Ok m
        end
    | None => Ok m
    end).
(** intersection_matrix.rs 316-322: [set_all]. *)
Definition set_all (m : IM) (v : Z) : res IM :=
  forN 3 0 m (fun i m => forN 3 0 m (fun j m => im_set m i j v)).
(** intersection_matrix.rs 348-367: [is_disjoint], [is_intersects]. *)
Definition is_disjoint (m : IM) : bool :=
  (ii m =? dFALSE) && (ib m =? dFALSE) && (bi m =? dFALSE) && (bb m =? dFALSE).
Definition is_intersects (m : IM) : bool := negb (is_disjoint m).
(** intersection_matrix.rs 379-401: [is_touches]; the recursive call is made
    with the smaller dimension first, so it does not recurse again. *)
Definition touches_ordered (m : IM) (a b : Z) : bool :=
  if ((a =? dA) && (b =? dA)) || ((a =? dL) && (b =? dL)) || ((a =? dL) && (b =? dA))
     || ((a =? dP) && (b =? dA)) || ((a =? dP) && (b =? dL))
  then (ii m =? dFALSE) && (is_true (ib m) || is_true (bi m) || is_true (bb m))
  else false.
Definition is_touches (m : IM) (a b : Z) : bool :=
  if a >? b then touches_ordered m b a else touches_ordered m a b.
(** intersection_matrix.rs 428-453: [is_crosses]. *)
Definition is_crosses (m : IM) (a b : Z) : bool :=
  if ((a =? dP) && (b =? dL)) || ((a =? dP) && (b =? dA)) || ((a =? dL) && (b =? dA))
  then is_true (ii m) && is_true (ie m)
  else if ((a =? dL) && (b =? dP)) || ((a =? dA) && (b =? dP)) || ((a =? dA) && (b =? dL))
  then is_true (ii m) && is_true (ei m)
  else if (a =? dL) && (b =? dL) then ii m =? 0
  else false.
(** intersection_matrix.rs 461-467: [is_within]. *)
Definition is_within (m : IM) : bool := is_true (ii m) && (ie m =? dFALSE) && (be m =? dFALSE).
(** intersection_matrix.rs 475-481: [is_contains]. *)
Definition is_contains (m : IM) : bool := is_true (ii m) && (ei m =? dFALSE) && (eb m =? dFALSE).
(** intersection_matrix.rs 493-505: [is_covers]. *)
Definition is_covers (m : IM) : bool :=
  let common := is_true (ii m) || is_true (ib m) || is_true (bi m) || is_true (bb m) in
  common && (ei m =? dFALSE) && (eb m =? dFALSE).
(** intersection_matrix.rs 517-529: [is_covered_by]. *)
Definition is_covered_by (m : IM) : bool :=
  let common := is_true (ii m) || is_true (ib m) || is_true (bi m) || is_true (bb m) in
  common && (ie m =? dFALSE) && (be m =? dFALSE).
(** intersection_matrix.rs 548-561: [is_equals]. *)
Definition is_equals (m : IM) (a b : Z) : bool :=
  if negb (a =? b) then false
  else is_true (ii m) && (ie m =? dFALSE) && (be m =? dFALSE) && (ei m =? dFALSE) && (eb m =? dFALSE).
(** intersection_matrix.rs 563-572: [equals]. *)
Definition im_equals (m o : IM) : res bool :=
  r <- forR 3 0 tt (fun i _ =>
    forR 3 0 tt (fun j _ =>
      x <- im_get m i j ;; y <- im_get o i j ;;
      Ok (if negb (x =? y) then inr false else inl tt))) ;;
  match r with inr b => Ok b | inl _ => Ok true end.
(** intersection_matrix.rs 588-611: [is_overlaps]. *)
Definition is_overlaps (m : IM) (a b : Z) : bool :=
  if ((a =? dP) && (b =? dP)) || ((a =? dA) && (b =? dA))
  then is_true (ii m) && is_true (ie m) && is_true (ei m)
  else if (a =? dL) && (b =? dL) then (ii m =? 1) && is_true (ie m) && is_true (ei m)
  else false.
(** intersection_matrix.rs 621-641: [matches_string]. *)
Definition matches_string (m : IM) (pattern : rstring) : res bool :=
  if negb (Nat.eqb (str_len pattern) 9) then Ok false
  else
    r <- forR 3 0 tt (fun ai _ =>
      forR 3 0 tt (fun bi _ =>
        match nth_error pattern (3 * ai + bi) with
        | Some ch =>
            v <- im_get m ai bi ;;
            Ok (if negb (matches_i32_char v ch) then inr false else inl tt)
        | None => Ok (inr false)
        end)) ;;
    match r with inr b => Ok b | inl _ => Ok true end.
(** intersection_matrix.rs 184-190: [matches_string_string]. *)
Definition matches_string_string (actual required : rstring) : res bool :=
  m <- new_with_elements actual ;; matches_string m required.
(** intersection_matrix.rs 648-658: [transpose]; the six assignments in
    order. *)
Definition im_transpose (m : IM) : res IM :=
  temp <- im_get m 1 0 ;; x <- im_get m 0 1 ;; m <- im_set m 1 0 x ;; m <- im_set m 0 1 temp ;;
  temp <- im_get m 2 0 ;; x <- im_get m 0 2 ;; m <- im_set m 2 0 x ;; m <- im_set m 0 2 temp ;;
  temp <- im_get m 2 1 ;; x <- im_get m 1 2 ;; m <- im_set m 2 1 x ;; im_set m 1 2 temp.
(** intersection_matrix.rs 667-679: [to_string]. *)
Definition im_to_string (m : IM) : res rstring :=
  forN 3 0 [] (fun ai out =>
    forN 3 0 out (fun bi out =>
      v <- im_get m ai bi ;;
      Ok (match to_dimension_symbol v with Some c => out ++ [c] | None => out end))).
