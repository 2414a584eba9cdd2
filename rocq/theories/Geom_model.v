(** Model of the geometry types of src/core/geom: point.rs, line_string.rs,
    linear_ring.rs, polygon.rs, multi_point.rs, multi_line_string.rs,
    multi_polygon.rs and geometry_factory.rs.

    Methods on [&mut self] return the new object, with the result when there is
    one.  [hypot] stands for [f64::hypot].  [u] is the [usize] arithmetic where
    it can go below zero.  Left out: type names and type codes, constant
    dimensions, and the centroids, which are in Centroid_model.v. *)
From Coq Require Import ZArith Bool List.
From Verif Require Import Base F64 Coordinate_model Envelope_model CoordArrays_model CoordSeq_model
  PrecisionModel_model Measure_model Orientation_model Matrix_model.
Import ListNotations.
Open Scope Z_scope.

(** ** point.rs *)
(** point.rs 16-27: [struct Point]. *)
Record GPoint := mkPt { pt_seq : CSeq; pt_env : option Envelope; pt_pm : option PM }.
(** point.rs 30-37: [default]. *)
Definition pt_default : GPoint := mkPt (seq_of []) None None.
(** point.rs 50-60: [new_with_coordinate]. *)
Definition pt_new (c : Coordinate) (pm : option PM) : GPoint := mkPt (seq_of [from_coordinate c]) None pm.
(** point.rs 66-74: [new_with_coordinate_seq]. *)
Definition pt_of_seq (s : CSeq) : res GPoint :=
  _ <- rassert (Nat.leb (seq_size s) 1) ;; s' <- seq_copy s ;; Ok (mkPt s' None None).
(** point.rs 92-94: [is_empty]. *)
Definition pt_is_empty (p : GPoint) : bool := Nat.eqb (seq_size (pt_seq p)) 0.
(** point.rs 122-128: [get_coordinate]. *)
Definition pt_coordinate (p : GPoint) : res (option Coordinate) :=
  if negb (Nat.eqb (seq_size (pt_seq p)) 0) then c <- seq_coord (pt_seq p) 0 ;; Ok (Some c) else Ok None.
(** point.rs 76-82: [get_coordinates]. *)
Definition pt_coordinates (p : GPoint) : res (list Coordinate) :=
  if pt_is_empty p then Ok [] else o <- pt_coordinate p ;; c <- unwrap o ;; Ok [c].
(** point.rs 84-90: [get_num_points]. *)
Definition pt_num_points (p : GPoint) : nat := if pt_is_empty p then 0 else 1.
(** point.rs 108-120: [get_x], [get_y]. *)
Definition pt_x (p : GPoint) : res (option f64) := o <- pt_coordinate p ;; Ok (option_map cx o).
Definition pt_y (p : GPoint) : res (option f64) := o <- pt_coordinate p ;; Ok (option_map cy o).
(** point.rs 167-175: [compute_envelope_internal]; [get_x(0)] and [get_y(0)] of the sequence. *)
Definition pt_compute_envelope (p : GPoint) : res Envelope :=
  if pt_is_empty p then Ok env_default
  else c <- seq_coord (pt_seq p) 0 ;; Ok (expand_to_include_xy env_default (cx c) (cy c)).
(** point.rs 160-165: [get_envelope_internal]. *)
Definition pt_get_envelope (p : GPoint) : res (GPoint * Envelope) :=
  match pt_env p with
  | Some e => Ok (p, env_new_envelope e)
  | None => e <- pt_compute_envelope p ;; Ok (mkPt (pt_seq p) (Some e) (pt_pm p), env_new_envelope e)
  end.
(** point.rs 177-201: [equals_exact]. *)
Definition pt_equals_exact (hypot : f64 -> f64 -> f64) (p q : GPoint) (tolerance : f64) : res bool :=
  if pt_is_empty p && pt_is_empty q then Ok true
  else if negb (Bool.eqb (pt_is_empty p) (pt_is_empty q)) then Ok false
  else
    c <- pt_coordinate p ;; d <- pt_coordinate q ;;
    match c, d with
    | None, None => Ok true
    | Some _, None => Ok false
    | None, Some _ => Ok false
    | Some c, Some d => Ok (coords_equal hypot d c tolerance)
    end.
(** point.rs 239-241: [copy]. *)
Definition pt_copy (p : GPoint) : res GPoint := s <- seq_copy (pt_seq p) ;; pt_of_seq s.
(** point.rs 243-254: [reverse], [reverse_internal]. *)
Definition pt_reverse (p : GPoint) : res GPoint :=
  s <- seq_copy (pt_seq p) ;; r <- pt_of_seq s ;;
  Ok (match pt_env p with Some e => mkPt (pt_seq r) (Some (env_new_envelope e)) (pt_pm r) | None => r end).
(** point.rs 256-258: [compare_to_same_class]; [limit] is the comparator's limit. *)
Definition pt_compare (limit : Z) (p q : GPoint) : res Z := seq_compare limit (pt_seq p) (pt_seq q).

(** ** geometry_factory.rs: points *)
(** geometry_factory.rs 126-130, 139-144, 153-157. *)
Definition create_point : res GPoint := pt_of_seq (seq_of []).
Definition create_point_from_coordinate (c : Coordinate) : res GPoint := pt_of_seq (seq_of [from_coordinate c]).

(** ** line_string.rs *)
(** line_string.rs 28-39: [struct LineString]. *)
Record GLine := mkLn { ln_seq : CSeq; ln_env : option Envelope }.
(** line_string.rs 55-60: [new_from_coordinate_sequence]. *)
Definition ln_new (s : CSeq) : GLine := mkLn s None.
(** line_string.rs 62-64: [init]. *)
Definition ln_init (l : GLine) (s : CSeq) : GLine := mkLn s (ln_env l).
(** geometry_factory.rs 506-512: [create_line_string_coordinate_array_sequence]. *)
Definition create_line_of_seq (s : CSeq) : res GLine := s' <- seq_copy s ;; Ok (ln_new s').
(** geometry_factory.rs 495-499, 484-487. *)
Definition create_line (cs : list Coordinate) : res GLine := create_line_of_seq (seq_of cs).
(** line_string.rs 96-102: [is_empty], [get_num_points]. *)
Definition ln_is_empty (l : GLine) : bool := Nat.eqb (seq_size (ln_seq l)) 0.
Definition ln_num_points (l : GLine) : nat := seq_size (ln_seq l).
(** line_string.rs 66-68: [get_coordinates]. *)
Definition ln_coordinates (l : GLine) : list Coordinate := seq_to_array (ln_seq l).
(** line_string.rs 70-76: [get_coordinate_sequence], [get_coordinate_n]. *)
Definition ln_sequence (l : GLine) : res CSeq := seq_copy (ln_seq l).
Definition ln_coordinate_n (l : GLine) (n : nat) : res Coordinate := seq_coord (ln_seq l) n.
(** line_string.rs 78-83: [get_coordinate]. *)
Definition ln_coordinate (l : GLine) : res (option Coordinate) :=
  if ln_is_empty l then Ok None else c <- seq_coord (ln_seq l) 0 ;; Ok (Some c).
(** line_string.rs 122-129: [is_closed]; [is_ring] (131-135) is the same. *)
Definition ln_is_closed (l : GLine) : res bool :=
  if ln_is_empty l then Ok false
  else
    a <- ln_coordinate_n l 0 ;;
    k <- usub (ln_num_points l) 1 ;;
    b <- ln_coordinate_n l k ;;
    Ok (equals_2d a b).
(** line_string.rs 89-94: [get_boundary_dimension]; [Dimension::FALSE] is -1. *)
Definition ln_boundary_dimension (l : GLine) : res Z := c <- ln_is_closed l ;; Ok (if c : bool then -1 else 0).
(** line_string.rs 104-120: [get_point_n], [get_start_point], [get_end_point]. *)
Definition ln_point_n (l : GLine) (n : nat) : res GPoint := c <- seq_coord (ln_seq l) n ;; create_point_from_coordinate c.
Definition ln_start_point (l : GLine) : res (option GPoint) :=
  if ln_is_empty l then Ok None else p <- ln_point_n l 0 ;; Ok (Some p).
Definition ln_end_point (l : GLine) : res (option GPoint) :=
  if ln_is_empty l then Ok None else k <- usub (ln_num_points l) 1 ;; p <- ln_point_n l k ;; Ok (Some p).
(** line_string.rs 146-148: [get_length]. *)
Definition ln_length (hypot : f64 -> f64 -> f64) (l : GLine) : res f64 := length_of_line hypot (ln_seq l).
(** line_string.rs 168-181: [reverse], [reverse_internal]. *)
Definition ln_reverse (l : GLine) : res GLine :=
  s <- seq_copy (ln_seq l) ;; s <- seq_reverse s ;; r <- create_line_of_seq s ;;
  Ok (match ln_env l with Some e => mkLn (ln_seq r) (Some (env_new_envelope e)) | None => r end).
(** line_string.rs 190-197: [is_coordinate]. *)
Definition ln_is_coordinate (l : GLine) (pt : Coordinate) : res bool :=
  r <- forR (seq_size (ln_seq l)) 0 tt (fun i _ =>
    c <- seq_coord (ln_seq l) i ;; Ok (if equals_2d c pt then inr true else inl tt)) ;;
  match r with inr b => Ok b | inl _ => Ok false end.
(** line_string.rs 199-206: [compute_envelope_internal]. *)
Definition ln_compute_envelope (l : GLine) : Envelope :=
  if ln_is_empty l then env_default else seq_expand_envelope (ln_seq l) env_default.
(** geometry.rs 1828-1831: [equal]. *)
Definition geometry_equal (hypot : f64 -> f64 -> f64) (a b : Coordinate) (tolerance : f64) : bool :=
  if feqb tolerance f0 then equals_2d a b else fleb (distance hypot a b) tolerance.
(** line_string.rs 208-222, linear_ring.rs 192-206: [equals_exact]; [eq] is the
    comparison of two coordinates used. *)
Definition seq_equals_exact (eq : Coordinate -> Coordinate -> bool) (s t : CSeq) : res bool :=
  if negb (Nat.eqb (seq_size s) (seq_size t)) then Ok false
  else
    r <- forR (seq_size s) 0 tt (fun i _ =>
      a <- seq_coord s i ;; b <- seq_coord t i ;; Ok (if negb (eq a b) then inr false else inl tt)) ;;
    match r with inr b => Ok b | inl _ => Ok true end.
Definition ln_equals_exact (hypot : f64 -> f64 -> f64) (l m : GLine) (tolerance : f64) : res bool :=
  seq_equals_exact (fun a b => geometry_equal hypot a b tolerance) (ln_seq l) (ln_seq m).
(** line_string.rs 254-256: [copy]. *)
Definition ln_copy (l : GLine) : res GLine := s <- seq_copy (ln_seq l) ;; Ok (ln_new s).
(** line_string.rs 263-285: [normalize]. *)
Definition ln_normalize (l : GLine) : res GLine :=
  r <- forR (Nat.div (seq_size (ln_seq l)) 2) 0 tt (fun i _ =>
    k <- usub (seq_size (ln_seq l)) 1 ;;
    j <- usub k i ;;
    a <- seq_coord (ln_seq l) i ;;
    b <- seq_coord (ln_seq l) j ;;
    if negb (equals_2d a b) then
      (if compare_to a b >? 0 then
         copy <- seq_copy (ln_seq l) ;; copy <- seq_reverse copy ;; Ok (inr (mkLn copy (ln_env l)))
       else Ok (inr l))
    else Ok (inl tt)) ;;
  match r with inr l' => Ok l' | inl _ => Ok l end.
(** line_string.rs 287-309, linear_ring.rs 208-230: the loop over two sequences. *)
Definition seq_compare_points (s t : CSeq) : res Z :=
  let n := seq_size s in
  let m := seq_size t in
  r <- forR (Nat.min n m) 0 tt (fun i _ =>
    a <- seq_coord s i ;; b <- seq_coord t i ;;
    Ok (if negb (compare_to a b =? 0) then inr (compare_to a b) else inl tt)) ;;
  match r with
  | inr c => Ok c
  | inl _ => if Nat.ltb (Nat.min n m) n then Ok 1 else if Nat.ltb (Nat.min n m) m then Ok (-1) else Ok 0
  end.
Definition ln_compare (l m : GLine) : res Z := seq_compare_points (ln_seq l) (ln_seq m).
(** line_string.rs 311-317: [compare_to_with_comparator]. *)
Definition ln_compare_with (limit : Z) (l m : GLine) : res Z := seq_compare limit (ln_seq l) (ln_seq m).

(** ** linear_ring.rs *)
(** linear_ring.rs 32-37: [struct LinearRing]. *)
Record GRing := mkRg { rg_seq : CSeq; rg_pm : option PM; rg_env : option Envelope }.
(** 61-67: [new_with_coordinate_array_sequence]; also
    geometry_factory.rs 258-262. *)
Definition rg_of_seq (s : CSeq) : res GRing := s' <- seq_copy s ;; Ok (mkRg s' None None).
(** 45-49: [new_with_coordinates]; also geometry_factory.rs 228-247. *)
Definition rg_of (cs : list Coordinate) : res GRing := rg_of_seq (seq_of cs).
(** linear_ring.rs 133-135, 153-159: [is_empty], [get_coordinate_at_index], [get_num_points]. *)
Definition rg_is_empty (r : GRing) : bool := Nat.eqb (seq_size (rg_seq r)) 0.
Definition rg_coordinate_n (r : GRing) (n : nat) : res Coordinate := seq_coord (rg_seq r) n.
Definition rg_num_points (r : GRing) : nat := seq_size (rg_seq r).
(** linear_ring.rs 69-82: [get_coordinate], [get_coordinates], [get_coordinate_array_sequence]. *)
Definition rg_coordinate (r : GRing) : res (option Coordinate) :=
  if rg_is_empty r then Ok None else c <- seq_coord (rg_seq r) 0 ;; Ok (Some c).
Definition rg_coordinates (r : GRing) : list Coordinate := seq_to_array (rg_seq r).
Definition rg_sequence (r : GRing) : res CSeq := seq_copy (rg_seq r).
(** linear_ring.rs 105-112: [compute_envelope_internal]. *)
Definition rg_compute_envelope (r : GRing) : Envelope :=
  if rg_is_empty r then env_default else seq_expand_envelope (rg_seq r) env_default.
(** linear_ring.rs 98-103: [get_envelope_internal]. *)
Definition rg_get_envelope (r : GRing) : GRing * Envelope :=
  match rg_env r with
  | Some e => (r, env_new_envelope e)
  | None => let e := rg_compute_envelope r in (mkRg (rg_seq r) (rg_pm r) (Some e), env_new_envelope e)
  end.
(** linear_ring.rs 119-121: [get_length]. *)
Definition rg_length (hypot : f64 -> f64 -> f64) (r : GRing) : res f64 := length_of_line hypot (rg_seq r).
(** linear_ring.rs 143-151: [is_closed]. *)
Definition rg_is_closed (r : GRing) : res bool :=
  if rg_is_empty r then Ok true
  else
    a <- rg_coordinate_n r 0 ;;
    k <- usub (rg_num_points r) 1 ;;
    b <- rg_coordinate_n r k ;;
    Ok (equals_2d a b).
(** linear_ring.rs 169-175: [copy], [copy_internal]. *)
Definition rg_copy (r : GRing) : res GRing := s <- seq_copy (rg_seq r) ;; rg_of_seq s.
(** linear_ring.rs 177-190: [reverse], [reverse_internal]. *)
Definition rg_reverse (r : GRing) : res GRing :=
  s <- seq_copy (rg_seq r) ;; s <- seq_reverse s ;; q <- rg_of_seq s ;;
  Ok (match rg_env r with Some e => mkRg (rg_seq q) (rg_pm q) (Some (env_new_envelope e)) | None => q end).
(** linear_ring.rs 192-206: [equals_exact]. *)
Definition rg_equals_exact (hypot : f64 -> f64 -> f64) (r q : GRing) (tolerance : f64) : res bool :=
  seq_equals_exact (fun a b => coords_equal hypot a b tolerance) (rg_seq r) (rg_seq q).
(** linear_ring.rs 208-238: [compare_to_same_class], [compare_to_same_class_with_comparator]. *)
Definition rg_compare (r q : GRing) : res Z := seq_compare_points (rg_seq r) (rg_seq q).
Definition rg_compare_with (limit : Z) (r q : GRing) : res Z := seq_compare limit (rg_seq r) (rg_seq q).

(** ** polygon.rs *)
(** polygon.rs 38-55: [struct Polygon]. *)
Record GPoly := mkPoly { pg_shell : GRing; pg_holes : list GRing; pg_pm : option PM; pg_env : option Envelope }.
(** 98-129: the constructors from rings; also geometry_factory.rs 349-354. *)
Definition pg_new_pm (shell : GRing) (holes : list GRing) (pm : option PM) : res GPoly :=
  s <- rg_copy shell ;; Ok (mkPoly s holes pm None).
Definition pg_new (shell : GRing) (holes : list GRing) : res GPoly := pg_new_pm shell holes None.
(** 69-80: the constructors from a shell only; also geometry_factory.rs 365-400. *)
Definition pg_new_shell_pm (shell : GRing) (pm : PM) : res GPoly := pg_new_pm shell [] (Some pm).
Definition pg_new_shell (shell : GRing) : res GPoly := pg_new shell [].
Definition create_polygon (cs : list Coordinate) : res GPoly := r <- rg_of cs ;; pg_new_shell r.
(** polygon.rs 131-133: [get_coordinate]. *)
Definition pg_coordinate (p : GPoly) : res (option Coordinate) := s <- rg_copy (pg_shell p) ;; rg_coordinate s.
(** polygon.rs 156-162: [get_num_points]; the sum of lengths in memory is not checked. *)
Definition pg_num_points (p : GPoly) : nat :=
  fold_left (fun n h => (n + rg_num_points h)%nat) (pg_holes p) (rg_num_points (pg_shell p)).
(** polygon.rs 172-174: [is_empty]. *)
Definition pg_is_empty (p : GPoly) : bool := rg_is_empty (pg_shell p).
(** [k += 1; coordinates[k as usize] = c] for the coordinates [cs]; [k] is an
    [i32] and [i] the [i32] arithmetic. *)
Definition put_all (i : Z -> res Z) (cs : list Coordinate) (st : Z * list Coordinate) : res (Z * list Coordinate) :=
  forN (length cs) 0 st (fun j '(k, out) =>
    k <- i (k + 1) ;; c <- idx cs j ;; out <- zupd out (usize_wrap k) c ;; Ok (k, out)).
(** polygon.rs 135-154: [get_coordinates]. *)
Definition pg_coordinates (i : Z -> res Z) (p : GPoly) : res (list Coordinate) :=
  if pg_is_empty p then Ok []
  else
    st <- put_all i (rg_coordinates (pg_shell p)) (-1, repeat coord_default (pg_num_points p)) ;;
    st <- forN (length (pg_holes p)) 0 st (fun n st =>
            h <- idx (pg_holes p) n ;; put_all i (rg_coordinates h) st) ;;
    Ok (snd st).
(** polygon.rs 220-226: [get_num_interior_ring], [get_interior_ring_n]; 216-218: [get_exterior_ring]. *)
Definition pg_num_holes (p : GPoly) : nat := length (pg_holes p).
Definition pg_hole_n (p : GPoly) (n : nat) : res GRing := h <- idx (pg_holes p) n ;; rg_copy h.
Definition pg_exterior (p : GPoly) : res GRing := rg_copy (pg_shell p).
(** polygon.rs 338-349: [copy], [copy_internal]. *)
Definition pg_copy (p : GPoly) : res GPoly :=
  s <- rg_copy (pg_shell p) ;;
  hs <- forN (length (pg_holes p)) 0 [] (fun i hs => h <- idx (pg_holes p) i ;; h' <- rg_copy h ;; Ok (hs ++ [h'])) ;;
  pg_new s hs.
(** polygon.rs 283-285, 496-501: [compute_envelope_internal], [get_envelope_internal]. *)
Definition pg_get_envelope (p : GPoly) : GPoly * Envelope :=
  match pg_env p with
  | Some e => (p, env_new_envelope e)
  | None =>
    let '(s, e) := rg_get_envelope (pg_shell p) in
    (mkPoly s (pg_holes p) (pg_pm p) (Some e), env_new_envelope e)
  end.
(** polygon.rs 176-214: [is_rectangle]. *)
Definition corner_loop (s : CSeq) (env : Envelope) : res (unit + bool) :=
  forR 5 0 tt (fun i _ =>
    c <- seq_coord s i ;;
    if negb (feqb (cx c) (minx env) || feqb (cx c) (maxx env)) then Ok (inr false)
    else
      c <- seq_coord s i ;;
      if negb (feqb (cy c) (miny env) || feqb (cy c) (maxy env)) then Ok (inr false) else Ok (inl tt)).
Definition order_loop (s : CSeq) (prev : f64 * f64) : res (f64 * f64 + bool) :=
  forR 4 1 prev (fun i '(px, py) =>
    c <- seq_coord s i ;;
    if Bool.eqb (fneb (cx c) px) (fneb (cy c) py) then Ok (inr false) else Ok (inl (cx c, cy c))).
Definition pg_is_rectangle (p : GPoly) : res bool :=
  if negb (Nat.eqb (pg_num_holes p) 0) then Ok false
  else if negb (Nat.eqb (rg_num_points (pg_shell p)) 5) then Ok false
  else
    s <- rg_sequence (pg_shell p) ;;
    c <- pg_copy p ;;
    let env := snd (pg_get_envelope c) in
    r <- corner_loop s env ;;
    match r with
    | inr b => Ok b
    | inl _ =>
      c0 <- seq_coord s 0 ;;
      r <- order_loop s (cx c0, cy c0) ;;
      match r with inr b => Ok b | inl _ => Ok true end
    end.
(** polygon.rs 237-245: [get_area]. *)
Definition pg_area (p : GPoly) : res f64 :=
  s <- rg_sequence (pg_shell p) ;; a <- area_seq s ;;
  forN (length (pg_holes p)) 0 (fadd f0 a) (fun i area =>
    h <- idx (pg_holes p) i ;; s <- rg_sequence h ;; a <- area_seq s ;; Ok (fsub area a)).
(** polygon.rs 252-259: [get_length]. *)
Definition pg_length (hypot : f64 -> f64 -> f64) (p : GPoly) : res f64 :=
  a <- rg_length hypot (pg_shell p) ;;
  forN (length (pg_holes p)) 0 (fadd f0 a) (fun i len =>
    h <- idx (pg_holes p) i ;; a <- rg_length hypot h ;; Ok (fadd len a)).
(** polygon.rs 287-303: [equals_exact]. *)
Definition pg_equals_exact (hypot : f64 -> f64 -> f64) (p q : GPoly) (tolerance : f64) : res bool :=
  a <- rg_copy (pg_shell p) ;;
  b <- rg_copy (pg_shell q) ;;
  e <- rg_equals_exact hypot a b tolerance ;;
  if negb e then Ok false
  else if negb (Nat.eqb (length (pg_holes p)) (length (pg_holes q))) then Ok false
  else
    r <- forR (length (pg_holes p)) 0 tt (fun i _ =>
      a <- idx (pg_holes p) i ;; b <- idx (pg_holes q) i ;;
      e <- rg_equals_exact hypot a b tolerance ;;
      Ok (if negb e then inr false else inl tt)) ;;
    match r with inr b => Ok b | inl _ => Ok true end.
(** polygon.rs 364-424: [compare_to] and [compare_to_with_comparator]; [cmp] compares two rings. *)
Definition pg_compare_by (cmp : GRing -> GRing -> res Z) (p q : GPoly) : res Z :=
  a <- rg_copy (pg_shell p) ;;
  b <- rg_copy (pg_shell q) ;;
  c <- cmp a b ;;
  if negb (c =? 0) then Ok c
  else
    let n := pg_num_holes p in
    let m := pg_num_holes q in
    r <- forR (Nat.min n m) 0 tt (fun i _ =>
      a <- pg_hole_n p i ;; b <- pg_hole_n q i ;; c <- cmp a b ;;
      Ok (if negb (c =? 0) then inr c else inl tt)) ;;
    match r with
    | inr c => Ok c
    | inl _ => if Nat.ltb (Nat.min n m) n then Ok 1 else if Nat.ltb (Nat.min n m) m then Ok (-1) else Ok 0
    end.
Definition pg_compare : GPoly -> GPoly -> res Z := pg_compare_by rg_compare.
Definition pg_compare_with (limit : Z) : GPoly -> GPoly -> res Z := pg_compare_by (rg_compare_with limit).
(** polygon.rs 436-455: [normalize]; works on a copy of the sequence, which is dropped.
    [u] is the [usize] arithmetic.  [None] if [is_ccw] does not end. *)
Definition ring_normalize (u : Z -> res Z) (r : GRing) (clockwise : bool) : res (option unit) :=
  if rg_is_empty r then Ok (Some tt)
  else
    s <- rg_sequence r ;;
    t <- u (Z.of_nat (seq_size s) - 2) ;;
    (* 0..=t reads point 0, and fails at the first missing one *)
    m <- (if Z.of_nat (seq_size s) <=? t then Panic else seq_min_index_from_to s 0 (Z.to_nat t)) ;;
    s <- seq_scroll_ring s (Z.to_nat m) true ;;
    b <- is_ccw_seq s ;;
    match b with
    | None => Ok None
    | Some b => if Bool.eqb b clockwise then s <- seq_reverse s ;; Ok (Some tt) else Ok (Some tt)
    end.
(** polygon.rs 430-434: [normalized]. *)
Definition ring_normalized (u : Z -> res Z) (r : GRing) (clockwise : bool) : res (option GRing) :=
  c <- rg_copy r ;; o <- ring_normalize u c clockwise ;; Ok (option_map (fun _ => c) o).
(** polygon.rs 356-362: [self_normalize]. *)
Definition pg_self_normalize (u : Z -> res Z) (p : GPoly) : res (option GPoly) :=
  o <- ring_normalized u (pg_shell p) true ;;
  match o with
  | None => Ok None
  | Some s =>
    hs <- forN (length (pg_holes p)) 0 (Some (pg_holes p)) (fun i o =>
      match o with
      | None => Ok None
      | Some hs =>
        h <- idx hs i ;; o <- ring_normalized u h false ;;
        match o with None => Ok None | Some h' => hs <- upd hs i h' ;; Ok (Some hs) end
      end) ;;
    Ok (option_map (fun hs => mkPoly s hs (pg_pm p) (pg_env p)) hs)
  end.
(** polygon.rs 463-480: [reverse], [reverse_internal]; [holes] starts as [vec![]] and is
    assigned by index. *)
Definition pg_reverse (p : GPoly) : res GPoly :=
  e <- pg_exterior p ;; s <- rg_reverse e ;;
  hs <- forN (pg_num_holes p) 0 [] (fun i hs => h <- pg_hole_n p i ;; h' <- rg_reverse h ;; upd hs i h') ;;
  q <- pg_new s hs ;;
  Ok (match pg_env p with Some e => mkPoly (pg_shell q) (pg_holes q) (pg_pm q) (Some (env_new_envelope e)) | None => q end).

(** ** multi_point.rs *)
(** multi_point.rs 14-18: [struct MultiPoint]. *)
Record GMPoint := mkMPt { mp_points : list GPoint; mp_pm : option PM; mp_env : option Envelope }.
(** 33-55: the constructors; also geometry_factory.rs 280-282. *)
Definition mp_new (pts : list GPoint) (pm : option PM) : GMPoint := mkMPt pts pm None.
(** multi_point.rs 57-63: [is_empty], [get_num_points]. *)
Definition mp_is_empty (m : GMPoint) : bool := Nat.eqb (length (mp_points m)) 0.
Definition mp_num_points (m : GMPoint) : nat := length (mp_points m).
(** multi_point.rs 119-125: [compute_envelope_internal]; the envelopes of the points are cached too. *)
Definition mp_compute_envelope (m : GMPoint) : res (GMPoint * Envelope) :=
  r <- forN (length (mp_points m)) 0 (mp_points m, env_default) (fun i '(ps, e) =>
    p <- idx ps i ;; '(p', e') <- pt_get_envelope p ;; ps <- upd ps i p' ;;
    Ok (ps, expand_to_include_envelope e e')) ;;
  Ok (mkMPt (fst r) (mp_pm m) (mp_env m), snd r).
(** multi_point.rs 112-117: [get_envelope_internal]. *)
Definition mp_get_envelope (m : GMPoint) : res (GMPoint * Envelope) :=
  match mp_env m with
  | Some e => Ok (m, env_new_envelope e)
  | None => '(m', e) <- mp_compute_envelope m ;; Ok (mkMPt (mp_points m') (mp_pm m') (Some e), env_new_envelope e)
  end.
(** multi_point.rs 136-142, 263-269: [reverse_internal], [copy]; [points] starts as [vec![]]
    and is assigned by index. *)
Definition mp_copy (m : GMPoint) : res GMPoint :=
  ps <- forN (length (mp_points m)) 0 [] (fun i ps => p <- idx (mp_points m) i ;; p' <- pt_copy p ;; upd ps i p') ;;
  Ok (mp_new ps None).
(** multi_point.rs 127-134: [reverse]. *)
Definition mp_reverse (m : GMPoint) : res GMPoint :=
  r <- mp_copy m ;;
  Ok (match mp_env m with Some e => mkMPt (mp_points r) (mp_pm r) (Some (env_new_envelope e)) | None => r end).
(** multi_point.rs 211-221: [equals_exact]. *)
Definition mp_equals_exact (hypot : f64 -> f64 -> f64) (m o : GMPoint) (tolerance : f64) : res bool :=
  if negb (Nat.eqb (length (mp_points m)) (length (mp_points o))) then Ok false
  else
    r <- forR (length (mp_points m)) 0 tt (fun i _ =>
      a <- idx (mp_points m) i ;; b <- idx (mp_points o) i ;;
      e <- pt_equals_exact hypot a b tolerance ;; Ok (if negb e then inr false else inl tt)) ;;
    match r with inr b => Ok b | inl _ => Ok true end.
(** multi_point.rs 223-228: [get_point_at_index]; [u] is the [usize] arithmetic. *)
Definition mp_point_at (u : Z -> res Z) (m : GMPoint) (index : nat) : res (option GPoint) :=
  if Nat.eqb (length (mp_points m)) 0 then Ok None
  else
    k <- u (Z.of_nat index - 1) ;;
    if Z.of_nat (length (mp_points m)) <? k then Ok None
    else p <- idx (mp_points m) index ;; p' <- pt_copy p ;; Ok (Some p').
(** multi_point.rs 237-239: [get_coordinate]. *)
Definition mp_coordinate (m : GMPoint) (n : nat) : res (option Coordinate) := p <- idx (mp_points m) n ;; pt_coordinate p.
(** multi_point.rs 250-261: [get_coordinates]. *)
Definition mp_coordinates (i : Z -> res Z) (m : GMPoint) : res (list Coordinate) :=
  st <- forN (length (mp_points m)) 0 (-1, repeat coord_default (mp_num_points m)) (fun n st =>
    p <- idx (mp_points m) n ;; cs <- pt_coordinates p ;; put_all i cs st) ;;
  Ok (snd st).
(** geometry_factory.rs 319-334: [create_multi_point_from_coordinate_array_sequence]. *)
Definition create_multi_point_of_seq (s : CSeq) : res GMPoint :=
  ps <- forN (seq_size s) 0 (repeat pt_default (seq_size s)) (fun i ps =>
    d <- seq_create_meas 1 (sdim s) (smeas s) ;;
    d <- sq_copy CSeq sdim seq_get seq_set s i d 0 1 ;;
    p <- pt_of_seq d ;; upd ps i p) ;;
  Ok (mp_new ps None).
(** geometry_factory.rs 292-296: [create_multi_point_with_coordinates]. *)
Definition create_multi_point (cs : list Coordinate) : res GMPoint := create_multi_point_of_seq (seq_of cs).

(** ** multi_line_string.rs *)
(** multi_line_string.rs 14-18: [struct MultiLineString]; 34-58: the constructors. *)
Record GMLine := mkMLn { ml_lines : list GLine; ml_pm : option PM; ml_env : option Envelope }.
Definition ml_new (ls : list GLine) (pm : option PM) : GMLine := mkMLn ls pm None.
(** multi_line_string.rs 79-86: [is_empty]. *)
Definition ml_is_empty (m : GMLine) : res bool :=
  r <- forR (length (ml_lines m)) 0 tt (fun i _ =>
    l <- idx (ml_lines m) i ;; Ok (if negb (ln_is_empty l) then inr false else inl tt)) ;;
  match r with inr b => Ok b | inl _ => Ok true end.
(** multi_line_string.rs 88-98: [is_closed]. *)
Definition ml_is_closed (m : GMLine) : res bool :=
  e <- ml_is_empty m ;;
  if e : bool then Ok false
  else
    r <- forR (length (ml_lines m)) 0 tt (fun i _ =>
      l <- idx (ml_lines m) i ;; c <- ln_is_closed l ;; Ok (if negb c then inr false else inl tt)) ;;
    match r with inr b => Ok b | inl _ => Ok true end.
(** multi_line_string.rs 68-73: [get_boundary_dimension]. *)
Definition ml_boundary_dimension (m : GMLine) : res Z := c <- ml_is_closed m ;; Ok (if c : bool then -1 else 0).
(** multi_line_string.rs 122-137: [reverse], [reverse_internal]; the loop runs over the new, empty
    vector. *)
Definition ml_reverse (m : GMLine) : res GMLine :=
  ls <- forN (length (@nil GLine)) 0 [] (fun i ls => l <- idx (ml_lines m) i ;; l' <- ln_reverse l ;; upd ls i l') ;;
  let r := ml_new ls None in
  Ok (match ml_env m with Some e => mkMLn (ml_lines r) (ml_pm r) (Some (env_new_envelope e)) | None => r end).
(** multi_line_string.rs 139-145: [copy_internal]. *)
Definition ml_copy (m : GMLine) : res GMLine :=
  ls <- forN (length (ml_lines m)) 0 [] (fun i ls => l <- idx (ml_lines m) i ;; l' <- ln_copy l ;; upd ls i l') ;;
  Ok (ml_new ls None).
(** multi_line_string.rs 147-157: [equals_exact]. *)
Definition ml_equals_exact (hypot : f64 -> f64 -> f64) (m o : GMLine) (tolerance : f64) : res bool :=
  if negb (Nat.eqb (length (ml_lines m)) (length (ml_lines o))) then Ok false
  else
    r <- forR (length (ml_lines m)) 0 tt (fun i _ =>
      a <- idx (ml_lines m) i ;; b <- idx (ml_lines o) i ;;
      e <- ln_equals_exact hypot a b tolerance ;; Ok (if negb e then inr false else inl tt)) ;;
    match r with inr b => Ok b | inl _ => Ok true end.

(** ** multi_polygon.rs *)
(** 22-27: [struct MultiPolygon]; 45-72: the constructors; also
    geometry_factory.rs 219-221. *)
Record GMPoly := mkMPg { mg_polys : list GPoly; mg_pm : option PM; mg_env : option Envelope }.
Definition mg_new (ps : list GPoly) (pm : option PM) : GMPoly := mkMPg ps pm None.
(** multi_polygon.rs 124-130: [get_area]. *)
Definition mg_area (m : GMPoly) : res f64 :=
  forN (length (mg_polys m)) 0 f0 (fun i area => p <- idx (mg_polys m) i ;; a <- pg_area p ;; Ok (fadd area a)).
(** multi_polygon.rs 132-138: [get_num_polygons], [get_polygon_at_index]. *)
Definition mg_num_polygons (m : GMPoly) : nat := length (mg_polys m).
Definition mg_polygon_at (m : GMPoly) (n : nat) : res GPoly := p <- idx (mg_polys m) n ;; pg_copy p.
(** multi_polygon.rs 168-175: [is_empty]. *)
Definition mg_is_empty (m : GMPoly) : res bool :=
  r <- forR (length (mg_polys m)) 0 tt (fun i _ =>
    p <- idx (mg_polys m) i ;; Ok (if negb (pg_is_empty p) then inr false else inl tt)) ;;
  match r with inr b => Ok b | inl _ => Ok true end.
(** multi_polygon.rs 177-187: [equals_exact]. *)
Definition mg_equals_exact (hypot : f64 -> f64 -> f64) (m o : GMPoly) (tolerance : f64) : res bool :=
  if negb (Nat.eqb (length (mg_polys m)) (length (mg_polys o))) then Ok false
  else
    r <- forR (length (mg_polys m)) 0 tt (fun i _ =>
      a <- idx (mg_polys m) i ;; b <- idx (mg_polys o) i ;;
      e <- pg_equals_exact hypot a b tolerance ;; Ok (if negb e then inr false else inl tt)) ;;
    match r with inr b => Ok b | inl _ => Ok true end.
(** multi_polygon.rs 196-211: [reverse], [reverse_internal]. *)
Definition mg_reverse (m : GMPoly) : res GMPoly :=
  ps <- forN (length (mg_polys m)) 0 [] (fun i ps => p <- idx (mg_polys m) i ;; p' <- pg_reverse p ;; upd ps i p') ;;
  let r := mg_new ps None in
  Ok (match mg_env m with Some e => mkMPg (mg_polys r) (mg_pm r) (Some (env_new_envelope e)) | None => r end).
(** multi_polygon.rs 213-223: [copy], [copy_internal]. *)
Definition mg_copy (m : GMPoly) : res GMPoly :=
  ps <- forN (length (mg_polys m)) 0 [] (fun i ps => p <- idx (mg_polys m) i ;; p' <- pg_copy p ;; upd ps i p') ;;
  Ok (mg_new ps None).
