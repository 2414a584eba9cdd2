(** Model of src/core/geom/coordinates.rs, coordinate_list.rs and
    coordinate_arrays.rs.  A [Vec<Coordinate>] is a list.  Loops that read
    [v[i]] for every [i] in [0..v.len()] are written as recursion over the
    list (the index is always in bounds); loops with other index arithmetic
    keep their indices and can panic. *)
From Coq Require Import ZArith Bool List Lia.
From Verif Require Import Base F64 Coordinate_model Envelope_model MathUtil_model.
Import ListNotations.

(** ** coordinates.rs *)
(** coordinates.rs 26-37: [create_dim_measures]. *)
Definition create_dim_measures (dimension measures : Z) : Coordinate :=
  if Z.eqb dimension 2 then coord_default
  else if Z.eqb dimension 3 && Z.eqb measures 0 then coord_default
  else if Z.eqb dimension 3 && Z.eqb measures 1 then new_xym_default
  else if Z.eqb dimension 4 && Z.eqb measures 1 then new_xyzm_default
  else coord_default.
(** coordinates.rs 45-54: [dimension]. *)
Definition coords_dimension (c : Coordinate) : Z :=
  if is_xy c then 2 else if is_xym c then 3 else if is_xyzm c then 4 else 3.
(** coordinates.rs 62-71: [measures]. *)
Definition coords_measures (c : Coordinate) : Z :=
  if is_xy c then 0 else if is_xym c then 1 else if is_xyzm c then 1 else 0.
(** coordinates.rs 73-76: [equal]. *)
Definition coords_equal (hypot : f64 -> f64 -> f64) (a b : Coordinate) (tolerance : f64) : bool :=
  if feqb tolerance f0 then equals_2d a b else fleb (distance hypot a b) tolerance.

(** ** coordinate_list.rs: the list [vec] *)
(** coordinate_list.rs 128-145: [add_coordinate_repeated]. *)
Definition add_coordinate_repeated (v : list Coordinate) (c : Coordinate) (allow_repeated : bool)
  : list Coordinate :=
  if negb allow_repeated then
    if Nat.leb 1 (length v) then
      match nth_error v (length v - 1) with
      | Some last => if equals_2d last c then v else v ++ [c]
      | None => v ++ [c]
      end
    else v ++ [c]
  else v ++ [c].
(** [Vec::insert]: panics past the end. *)
Definition vec_insert {A} (v : list A) (i : nat) (a : A) : res (list A) :=
  if Nat.leb i (length v) then Ok (firstn i v ++ a :: skipn i v) else Panic.
(** coordinate_list.rs 154-189: [add_index_coordinate_repeated]. *)
Definition add_index_coordinate_repeated (v : list Coordinate) (i : nat) (c : Coordinate)
  (allow_repeated : bool) : res (list Coordinate) :=
  let blocked_prev :=
    if Nat.ltb 0 i then
      match nth_error v (i - 1) with Some prev => equals_2d prev c | None => false end
    else false in
  let blocked_next :=
    if Nat.ltb i (length v) then
      match nth_error v i with Some next => equals_2d next c | None => false end
    else false in
  if negb allow_repeated && Nat.ltb 0 (length v) && (blocked_prev || blocked_next)
  then Ok v
  else vec_insert v i c.
(** coordinate_list.rs 59-77: [add_coordinate_list_repeated_start_end].
    [i += inc as usize] with [inc = -1] adds 2^64-1: that overflows unless
    i = 0 (not reachable, as i > end), so with overflow checks
    ([checked = true]) it panics and without them it decrements.  [fuel] bounds the number of iterations; the loop is
    over when [i = end]. *)
Fixpoint add_start_end (checked : bool) (fuel : nat) (v cl : list Coordinate)
  (allow_repeated : bool) (desc : bool) (i e : nat) : option (res (list Coordinate)) :=
  if Nat.eqb i e then Some (Ok v)
  else match fuel with
  | O => None
  | S f =>
    match idx cl i with
    | Panic => Some Panic
    | Ok c =>
      let v' := add_coordinate_repeated v c allow_repeated in
      if desc then
        if checked then Some Panic
        else match i with O => Some Panic | S j => add_start_end checked f v' cl allow_repeated desc j e end
      else add_start_end checked f v' cl allow_repeated desc (S i) e
    end
  end.
Definition add_coordinate_list_repeated_start_end (checked : bool) (fuel : nat)
  (v cl : list Coordinate) (allow_repeated : bool) (s e : nat) : option (res (list Coordinate)) :=
  add_start_end checked fuel v cl allow_repeated (Nat.ltb e s) s e.
(** coordinate_list.rs 86-105: [add_coordinate_list_repeated_direction].  In
    the backward case the first access is [coord_list[len]]; [while i >= 0]
    always holds, so the access decides the outcome. *)
Definition add_coordinate_list_repeated_direction (v cl : list Coordinate)
  (allow_repeated direction : bool) : res (list Coordinate) :=
  if direction then
    Ok (fold_left (fun v c => add_coordinate_repeated v c allow_repeated) cl v)
  else
    c <- idx cl (length cl) ;; Ok (add_coordinate_repeated v c allow_repeated).
(** coordinate_list.rs 113-120: [add_coordinate_list_repeated]; also
    [add_all] (196-203). *)
Definition add_coordinate_list_repeated (v cl : list Coordinate) (allow_repeated : bool)
  : list Coordinate :=
  fold_left (fun v c => add_coordinate_repeated v c allow_repeated) cl v.
(** coordinate_list.rs 24-41: [new], [new_with_repeated]. *)
Definition list_new (cl : list Coordinate) : list Coordinate :=
  add_coordinate_list_repeated [] cl true.
Definition list_new_with_repeated (cl : list Coordinate) (allow_repeated : bool) : list Coordinate :=
  add_coordinate_list_repeated [] cl allow_repeated.
(** coordinate_list.rs 208-218: [close_ring]. *)
Definition list_close_ring (v : list Coordinate) : list Coordinate :=
  if Nat.ltb 0 (length v) then
    match nth_error v 0 with
    | Some d => add_coordinate_repeated v d false
    | None => v
    end
  else v.
(** coordinate_list.rs 235-250: [to_coordinate_array_forward]. *)
Definition to_coordinate_array_forward (v : list Coordinate) (is_forward : bool)
  : res (list Coordinate) :=
  if is_forward then Ok v
  else
    let size := length v in
    forN size 0 (repeat coord_default size) (fun i pts =>
      k1 <- usub size i ;; k <- usub k1 1 ;;
      match nth_error v k with
      | Some c => upd pts i c
      | None => Ok pts
      end).

(** ** coordinate_arrays.rs *)
(** coordinate_arrays.rs 24-35: [dimension]. *)
Definition arr_dimension (pts : list Coordinate) : Z :=
  match pts with
  | [] => 3
  | _ => fold_left (fun d c => Z.max d (coords_dimension c)) pts 0%Z
  end.
(** coordinate_arrays.rs 43-54: [measures]. *)
Definition arr_measures (pts : list Coordinate) : Z :=
  match pts with
  | [] => 0
  | _ => fold_left (fun d c => Z.max d (coords_measures c)) pts 0%Z
  end.
(** coordinate_arrays.rs 110-123: [enforce_consistency_dim_measures]. *)
Definition enforce_consistency_dim_measures (a : list Coordinate) (dimension measures : Z)
  : list Coordinate :=
  map (fun c => set_coordinate (create_dim_measures dimension measures) c) a.
(** coordinate_arrays.rs 66-96: [enforce_consistency]. *)
Definition consistency_scan (a : list Coordinate) : Z * Z * bool :=
  fold_left (fun '(md, mm, ok) c =>
    let d := coords_dimension c in
    let m := coords_measures c in
    if Z.eqb md (-1) then (d, m, ok)
    else if negb (Z.eqb d md) || negb (Z.eqb m mm) then (Z.max md d, Z.max mm m, false)
    else (md, mm, ok)) a (-1, -1, true)%Z.
Definition enforce_consistency (a : list Coordinate) : list Coordinate :=
  let '(md, mm, ok) := consistency_scan a in
  if negb ok then map (fun c => set_coordinate (create_dim_measures md mm) c) a else a.
(** coordinate_arrays.rs 133-141: [is_ring]. *)
Definition arr_is_ring (pts : list Coordinate) : res bool :=
  if Nat.ltb (length pts) 4 then Ok false
  else
    a <- idx pts 0 ;; n <- usub (length pts) 1 ;; b <- idx pts n ;;
    if negb (equals_2d a b) then Ok false else Ok true.
(** coordinate_arrays.rs 644-651: [index_of]; [i as i32] wraps. *)
Fixpoint index_of_from (c : Coordinate) (l : list Coordinate) (i : Z) : Z :=
  match l with
  | [] => -1
  | h :: t => if equals_2d c h then i32_wrap i else index_of_from c t (i + 1)%Z
  end.
Definition index_of (c : Coordinate) (l : list Coordinate) : Z := index_of_from c l 0.
(** coordinate_arrays.rs 151-159: [pt_not_in_list]. *)
Fixpoint pt_not_in_list (test_pts pts : list Coordinate) : option Coordinate :=
  match test_pts with
  | [] => None
  | t :: r => if Z.ltb (index_of t pts) 0 then Some t else pt_not_in_list r pts
  end.
(** coordinate_arrays.rs 170-189: [compare]. *)
Fixpoint arr_compare (p1 p2 : list Coordinate) : Z :=
  match p1, p2 with
  | a :: t1, b :: t2 =>
      let c := compare_to a b in if negb (Z.eqb c 0) then c else arr_compare t1 t2
  | [], _ :: _ => -1
  | _ :: _, [] => 1
  | [], [] => 0
  end.
(** coordinate_arrays.rs 220-231: [increasing_direction]. *)
Definition increasing_direction (pts : list Coordinate) : res Z :=
  o <- forR (length pts) 0 tt (fun i _ =>
         k <- usub (length pts) 1 ;; j <- usub k i ;;
         a <- idx pts i ;; b <- idx pts j ;;
         let comp := compare_to a b in
         if negb (Z.eqb comp 0) then Ok (inr comp) else Ok (inl tt)) ;;
  match o with inr c => Ok c | inl _ => Ok 1%Z end.
(** coordinate_arrays.rs 241-250: [is_equal_reversed]. *)
Definition is_equal_reversed (p1 p2 : list Coordinate) : res bool :=
  o <- forR (length p1) 0 tt (fun i _ =>
         a <- idx p1 i ;;
         k <- usub (length p1) i ;; j <- usub k 1 ;;
         b <- idx p2 j ;;
         if negb (Z.eqb (compare_to a b) 0) then Ok (inr false) else Ok (inl tt)) ;;
  match o with inr c => Ok c | inl _ => Ok true end.
(** coordinate_arrays.rs 311-317: [copy_deep]. *)
Definition copy_deep (cs : list Coordinate) : res (list Coordinate) :=
  forN (length cs) 0 (repeat coord_default (length cs)) (fun i copy =>
    c <- idx cs i ;; upd copy i c).
(** coordinate_arrays.rs 331-341: [copy_deep_to]. *)
Definition copy_deep_to (src : list Coordinate) (src_start : nat) (dest : list Coordinate)
  (dest_start len : nat) : res (list Coordinate) :=
  forN len 0 dest (fun i dest =>
    c <- idx src (src_start + i)%nat ;; upd dest (dest_start + i)%nat c).
(** coordinate_arrays.rs 357-364: [has_repeated_points]. *)
Fixpoint has_repeated_points (l : list Coordinate) : bool :=
  match l with
  | a :: (b :: _) as t => if equals_2d a b then true else has_repeated_points t
  | _ => false
  end.
(** coordinate_arrays.rs 370-377: [at_least_n_coordinates_or_nothing]. *)
Definition at_least_n_coordinates_or_nothing (n : nat) (c : list Coordinate) : list Coordinate :=
  if Nat.leb n (length c) then c else [].
(** coordinate_arrays.rs 388-395: [remove_repeated_points]. *)
Definition remove_repeated_points (l : list Coordinate) : list Coordinate :=
  if negb (has_repeated_points l) then l else list_new_with_repeated l false.
(** coordinate_arrays.rs 404-414: [has_repeated_or_invalid_points]. *)
Fixpoint has_repeated_or_invalid_points (l : list Coordinate) : bool :=
  match l with
  | a :: (b :: _) as t =>
      if negb (coord_is_valid b) then true
      else if equals_2d a b then true
      else has_repeated_or_invalid_points t
  | _ => false
  end.
(** coordinate_arrays.rs 426-439: [remove_repeated_or_invalid_points]. *)
Definition remove_repeated_or_invalid_points (l : list Coordinate) : list Coordinate :=
  if negb (has_repeated_or_invalid_points l) then l
  else fold_left (fun v c => if negb (coord_is_valid c) then v
                             else add_coordinate_repeated v c false) l [].
(** coordinate_arrays.rs 486-497: [equals]. *)
Fixpoint equals_pointwise (c1 c2 : list Coordinate) : bool :=
  match c1, c2 with
  | a :: t1, b :: t2 => if negb (equals_2d a b) then false else equals_pointwise t1 t2
  | _, _ => true
  end.
Definition arr_equals (c1 c2 : list Coordinate) : bool :=
  if negb (Nat.eqb (length c1) (length c2)) then false else equals_pointwise c1 c2.
(** coordinate_arrays.rs 529-537: [min_coordinate]. *)
Definition min_coordinate (cs : list Coordinate) : option Coordinate :=
  fold_left (fun m c =>
    match m with
    | None => Some c
    | Some a => if Z.gtb (compare_to a c) 0 then Some c else m
    end) cs None.
(** coordinate_arrays.rs 582-633: [scroll_index_ensure_ring].  The final
    [clone_from_slice] copies a vector of equal length.  [i + j] of line 624
    is unbounded here; in the code it is a [usize], which overflows only for
    an index within [last] of 2^64. *)
Definition scroll_index_ensure_ring (cs : list Coordinate) (i : nat) (ensure_ring : bool)
  : res (list Coordinate) :=
  if Nat.leb i 0 then Ok cs
  else
    let n := length cs in
    let new := repeat coord_default n in
    if negb ensure_ring then
      len <- usub n i ;;
      new1 <- forN len 0 new (fun k new => c <- idx cs (i + k)%nat ;; upd new k c) ;;
      forN i 0 new1 (fun k new => c <- idx cs k ;; upd new (len + k)%nat c)
    else
      last <- usub n 1 ;;
      new1 <- forN last 0 new (fun j new => c <- idx cs ((i + j) mod last)%nat ;; upd new j c) ;;
      c <- idx new1 0 ;; upd new1 last c.
(** coordinate_arrays.rs 563-569: [scroll_index]. *)
Definition scroll_index (cs : list Coordinate) (i : nat) : res (list Coordinate) :=
  r <- arr_is_ring cs ;; scroll_index_ensure_ring cs i r.
(** coordinate_arrays.rs 546-554: [scroll_coordinate]. *)
Fixpoint position (f : Coordinate -> bool) (l : list Coordinate) : option nat :=
  match l with
  | [] => None
  | h :: t => if f h then Some O else option_map S (position f t)
  end.
Definition scroll_coordinate (cs : list Coordinate) (first : Coordinate) : res (list Coordinate) :=
  match position (fun r => equals_2d r first) cs with
  | Some i => scroll_index cs i
  | None => Ok cs
  end.
(** coordinate_arrays.rs 666-693: [extract].  [usize] values are integers in
    [0, 2^64); the casts to [i32] and back are explicit.  [u] is the [usize]
    arithmetic of line 670, checked in [extract]. *)
Definition extract_by (u : Z -> res Z) (pts : list Coordinate) (start0 end0 : Z) : res (list Coordinate) :=
  let len := Z.of_nat (length pts) in
  let start := usize_wrap (clamp_i32 (i32_wrap start0) 0 (i32_wrap len)) in
  let end_ := usize_wrap (clamp_i32 (i32_wrap end0) (-1) (i32_wrap len)) in
  d <- u (end_ - start)%Z ;;
  npts <- u (d + 1)%Z ;;
  let npts := if Z.leb len start then 0%Z else npts in
  let npts := if Z.ltb end_ start then 0%Z else npts in
  if Z.eqb npts 0 then Ok []
  else
    forN (Z.to_nat (end_ - start)) 0 [] (fun k out =>
      c <- idx pts (Z.to_nat start + k)%nat ;; upd out (k + 1)%nat c).
Definition extract : list Coordinate -> Z -> Z -> res (list Coordinate) := extract_by usize_chk.
(** coordinate_arrays.rs 716-724: [intersection]. *)
Definition arr_intersection (cs : list Coordinate) (env : Envelope) : list Coordinate :=
  fold_left (fun v c => if intersects_xy env (cx c) (cy c)
                        then add_coordinate_repeated v c true else v) cs [].
