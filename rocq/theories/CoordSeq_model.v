(** Model of the coordinate sequences: src/core/geom/implementation/
    coordinate_array_sequence.rs, coordinate_array_sequence_factory.rs,
    packed_coordinate_sequence_double.rs, packed_coordinate_sequence_factory.rs
    and src/core/geom/{coordinate_array_sequences,packed_coordinate_sequences,
    coordinate_sequence_comparator}.rs.

    Mutating methods return the new sequence.  [for d in 0..dim] over [i32]
    runs [Z.to_nat dim] times.  Sums of two in-memory indices are not checked
    for overflow. *)
From Coq Require Import ZArith Bool List.
From Verif Require Import Base F64 Coordinate_model Envelope_model CoordArrays_model.
Import ListNotations.
Open Scope Z_scope.

(** ** coordinate_array_sequence.rs *)
(** coordinate_array_sequence.rs 6-19: [struct CoordinateArraySequence]. *)
Record CSeq := mkSeq { sdim : Z; smeas : Z; scoords : list Coordinate }.
(** coordinate_array_sequence.rs 53-59: [new_with_coordinates]. *)
Definition seq_of (cs : list Coordinate) : CSeq := mkSeq (arr_dimension cs) (arr_measures cs) cs.
(** coordinate_array_sequence.rs 69-75: [new_with_coordinates_dimension]. *)
Definition seq_of_dim (cs : list Coordinate) (d : Z) : CSeq := mkSeq d (arr_measures cs) cs.
(** coordinate_array_sequence.rs 88-98: [new_with_coordinates_dimension_measures]. *)
Definition seq_of_dim_meas (cs : list Coordinate) (d m : Z) : CSeq := mkSeq d m cs.
(** coordinate_array_sequence.rs 106-112: [new_with_size]. *)
Definition seq_new_size (n : nat) : CSeq := mkSeq 3 0 (repeat coord_default n).
(** coordinate_array_sequence.rs 121-127: [new_with_size_dimension]. *)
Definition seq_new_size_dim (n : nat) (d : Z) : CSeq := mkSeq d 0 (repeat (create_dim_measures d 0) n).
(** coordinate_array_sequence.rs 136-145: [new_with_size_dimension_measures]. *)
Definition seq_new_size_dim_meas (n : nat) (d m : Z) : CSeq := mkSeq d m (repeat (create_dim_measures d m) n).
(** coordinate_array_sequence.rs 322-324: [size]. *)
Definition seq_size (s : CSeq) : nat := length (scoords s).
(** coordinate_array_sequence.rs 201-213: [get_coordinate_index], [get_coordinate_copy]. *)
Definition seq_coord (s : CSeq) (i : nat) : res Coordinate := idx (scoords s) i.
(** coordinate_array_sequence.rs 218-220: [get_coordinate_index_coordinate]. *)
Definition seq_coord_into (s : CSeq) (i : nat) (c : Coordinate) : res Coordinate :=
  o <- idx (scoords s) i ;; Ok (set_coordinate c o).
(** coordinate_array_sequence.rs 242-258: [has_z], [has_m]. *)
Definition has_z (s : CSeq) : res bool := d <- i32_chk (sdim s - smeas s) ;; Ok (d >? 2).
Definition has_m (s : CSeq) : bool := smeas s >? 0.
(** coordinate_array_sequence.rs 263-280: [get_z], [get_m]. *)
Definition seq_get_z (s : CSeq) (i : nat) : res f64 :=
  h <- has_z s ;; if h then c <- idx (scoords s) i ;; Ok (cz c) else Ok fnan.
Definition seq_get_m (s : CSeq) (i : nat) : res f64 :=
  if has_m s then c <- idx (scoords s) i ;; Ok (cm c) else Ok fnan.
(** coordinate_array_sequence.rs 285-297: [get_ordinate]. *)
Definition seq_get (s : CSeq) (i : nat) (o : Z) : res f64 :=
  c <- idx (scoords s) i ;;
  Ok (if o =? 0 then cx c else if o =? 1 then cy c
      else match get_ordinate c o with Some v => v | None => fnan end).
(** coordinate_array_sequence.rs 329-335: [set_ordinate]. *)
Definition seq_set (s : CSeq) (i : nat) (o : Z) (v : f64) : res CSeq :=
  c <- idx (scoords s) i ;;
  cs <- upd (scoords s) i
         (if o =? 0 then set_x c v else if o =? 1 then set_y c v else set_ordinate c o v) ;;
  Ok (mkSeq (sdim s) (smeas s) cs).
(** coordinate_array_sequence.rs 304-315: [copy]; element by element into a fresh array.  Also
    [new_from_coordinate_array_sequence] (153-165). *)
Definition seq_copy (s : CSeq) : res CSeq :=
  cs <- forN (length (scoords s)) 0 (repeat coord_default (length (scoords s)))
          (fun i cs => c <- idx (scoords s) i ;; upd cs i c) ;;
  Ok (mkSeq (sdim s) (smeas s) cs).
(** coordinate_array_sequence.rs 342-344: [to_coordinate_array]. *)
Definition seq_to_array (s : CSeq) : list Coordinate := scoords s.
(** coordinate_array_sequence.rs 346-350: [expand_envelope]. *)
Definition seq_expand_envelope (s : CSeq) (e : Envelope) : Envelope :=
  fold_left expand_to_include_coordinate (scoords s) e.

(** coordinate_array_sequence_factory.rs 35-46: [create_with_size_dimension]. *)
Definition seq_create (n : nat) (d : Z) : CSeq :=
  let d := if d >? 3 then 3 else d in
  let d := if d <? 2 then 2 else d in
  seq_new_size_dim n d.
(** coordinate_array_sequence_factory.rs 48-71. *)
Definition seq_create_meas (n : nat) (dimension measures : Z) : res CSeq :=
  spatial <- i32_chk (dimension - measures) ;;
  let measures := if measures >? 1 then 1 else measures in
  let spatial := if spatial >? 3 then 3 else spatial in
  let spatial := if spatial <? 2 then 2 else spatial in
  d <- i32_chk (spatial + measures) ;;
  Ok (seq_new_size_dim_meas n d measures).

(** ** packed_coordinate_sequence_double.rs *)
(** packed_coordinate_sequence_double.rs 9-24: [struct PackedCoordinateSequenceDouble]. *)
Record Packed := mkPacked { pdim : Z; pmeas : Z; pcoords : list f64 }.
(** packed_coordinate_sequence_double.rs 57-74: [new_f64_with_coordinates_dimension_measures]. *)
Definition packed_new (raw : list f64) (d m : Z) : res Packed :=
  cs <- forN (length raw) 0 (repeat fnan (length raw)) (fun i cs => v <- idx raw i ;; upd cs i v) ;;
  Ok (mkPacked d m cs).
(** [i * dimension as usize + o as usize], checked. *)
Definition pidx (d : Z) (i : nat) (o : Z) : res nat :=
  p <- usize_chk (Z.of_nat i * usize_wrap d) ;;
  k <- usize_chk (p + usize_wrap o) ;; Ok (Z.to_nat k).
(** packed_coordinate_sequence_double.rs 82-168: the loop shared by the three constructors from coordinates;
    [coords] starts as [vec![]]. *)
Definition packed_fill (d : Z) (cs : list Coordinate) : res (list f64) :=
  forN (length cs) 0 [] (fun i raw =>
    c <- idx cs i ;;
    k <- pidx d i 0 ;; raw <- upd raw k (cx c) ;;
    k1 <- pidx d i 1 ;; raw <- upd raw k1 (cy c) ;;
    raw <- (if d >=? 3 then v <- unwrap (get_ordinate c 2) ;; k2 <- pidx d i 2 ;; upd raw k2 v else Ok raw) ;;
    if d >=? 4 then v <- unwrap (get_ordinate c 3) ;; k3 <- pidx d i 3 ;; upd raw k3 v else Ok raw).
(** packed_coordinate_sequence_double.rs 82-104: [new_coordinates_with_dimension]. *)
Definition packed_of_coords_dim (cs : list Coordinate) (d : Z) : res Packed :=
  m <- i32_chk (d - 3) ;; raw <- packed_fill d cs ;; Ok (mkPacked d (Z.max 0 m) raw).
(** packed_coordinate_sequence_double.rs 113-139: [new_coordinates_with_dimension_measures]. *)
Definition packed_of_coords_dim_meas (cs : list Coordinate) (d m : Z) : res Packed :=
  raw <- packed_fill d cs ;; Ok (mkPacked d m raw).
(** packed_coordinate_sequence_double.rs 146-168: [new_with_coordinates]. *)
Definition packed_of_coords (cs : list Coordinate) : res Packed :=
  raw <- packed_fill 3 cs ;; Ok (mkPacked 3 0 raw).
(** packed_coordinate_sequence_double.rs 177-183: [new_with_size_dimension_measures]. *)
Definition packed_new_size (n : nat) (d m : Z) : res Packed :=
  k <- usize_chk (Z.of_nat n * usize_wrap d) ;; Ok (mkPacked d m (repeat fnan (Z.to_nat k))).
(** packed_coordinate_sequence_double.rs 226-228: [size]. *)
Definition packed_size (p : Packed) : res nat :=
  if usize_wrap (pdim p) =? 0 then Panic
  else Ok (Z.to_nat (Z.of_nat (length (pcoords p)) / usize_wrap (pdim p))).
(** packed_coordinate_sequence_double.rs 263-265: [get_ordinate]. *)
Definition packed_get (p : Packed) (i : nat) (o : Z) : res f64 :=
  k <- pidx (pdim p) i o ;; idx (pcoords p) k.
(** packed_coordinate_sequence_double.rs 270-272: [set_ordinate]. *)
Definition packed_set (p : Packed) (i : nat) (o : Z) (v : f64) : res Packed :=
  k <- pidx (pdim p) i o ;; cs <- upd (pcoords p) k v ;; Ok (mkPacked (pdim p) (pmeas p) cs).
(** packed_coordinate_sequence_double.rs 188-205: [get_coordinate_internal], [get_coordinate_by_index] (219). *)
Definition packed_coord (p : Packed) (i : nat) : res Coordinate :=
  let d := pdim p in
  let m := pmeas p in
  x <- packed_get p i 0 ;; y <- packed_get p i 1 ;;
  if (d =? 2) && (m =? 0) then Ok (new_xy x y)
  else if (d =? 3) && (m =? 0) then z <- packed_get p i 2 ;; Ok (new_xyz x y z)
  else if (d =? 3) && (m =? 1) then v <- packed_get p i 2 ;; Ok (new_xym x y v)
  else if d =? 4 then z <- packed_get p i 2 ;; v <- packed_get p i 3 ;; Ok (new_xyzm x y z v)
  else Ok (new_xy x y).
(** packed_coordinate_sequence_double.rs 233-241: [copy]. *)
Definition packed_copy (p : Packed) : res Packed := packed_new (pcoords p) (pdim p) (pmeas p).
(** packed_coordinate_sequence_double.rs 277-284: [to_coordinate_array]. *)
Definition packed_to_array (p : Packed) : res (list Coordinate) :=
  n <- packed_size p ;;
  forN n 0 (repeat coord_default n) (fun i cs => c <- packed_coord p i ;; upd cs i c).
(** packed_coordinate_sequence_double.rs 289-300: [expand_envelope].  The [while] loop runs at most
    [length pcoords] times when the step is positive; [None] is a run past
    that, which is non-termination (step 0). *)
Fixpoint packed_env_loop (fuel : nat) (cs : list f64) (step : Z) (i : Z) (e : Envelope) : option (res Envelope) :=
  if i <? Z.of_nat (length cs) then
    match fuel with
    | O => None
    | S f =>
        let r := if i + 1 <? Z.of_nat (length cs)
                 then x <- idx cs (Z.to_nat i) ;; y <- idx cs (Z.to_nat (i + 1)) ;; Ok (expand_to_include_xy e x y)
                 else Ok e in
        match r with
        | Ok e' =>
            match usize_chk (i + step) with
            | Ok i' => packed_env_loop f cs step i' e'
            | Panic => Some Panic
            end
        | Panic => Some Panic
        end
    end
  else Some (Ok e).
Definition packed_expand_envelope (p : Packed) (e : Envelope) : option (res Envelope) :=
  packed_env_loop (length (pcoords p)) (pcoords p) (usize_wrap (pdim p)) 0 e.

(** packed_coordinate_sequence_factory.rs 23-38: [create_double_from_coordinates]. *)
Definition packed_create_from_coords (cs : list Coordinate) : res Packed :=
  match cs with
  | [] => packed_of_coords_dim_meas cs 3 0
  | first :: _ => packed_of_coords_dim_meas cs (coords_dimension first) (coords_measures first)
  end.
(** packed_coordinate_sequence_factory.rs 64-95. *)
Definition packed_create_dim (raw : list f64) (d : Z) : res Packed := packed_new raw d 0.
Definition packed_create_dim_meas (raw : list f64) (d m : Z) : res Packed := packed_new raw d m.
(** packed_coordinate_sequence_factory.rs 100-112: [create_with_size_dimension]. *)
Definition packed_create (n : nat) (d : Z) : res Packed :=
  m <- i32_chk (d - 3) ;; packed_new_size n d (Z.max 0 m).

(** ** coordinate_array_sequences.rs and packed_coordinate_sequences.rs
    The two files are the same text over the two sequence types; the
    functions are written once over the methods they call. *)
Section Seqs.
  Variable T : Type.
  Variable size : T -> res nat.
  Variable dim : T -> Z.
  Variable get : T -> nat -> Z -> res f64.
  Variable set : T -> nat -> Z -> f64 -> res T.
  Variable copy_of : T -> res T.
  Variable coord : T -> nat -> res Coordinate.
  Variable create : nat -> Z -> res T.

  (** coordinate_array_sequences.rs 37-46, packed_coordinate_sequences.rs 37-46: [swap]. *)
  Definition sq_swap (s : T) (i j : nat) : res T :=
    if Nat.eqb i j then Ok s
    else forN (Z.to_nat (dim s)) 0 s (fun d s =>
      tmp <- get s i (Z.of_nat d) ;; v <- get s j (Z.of_nat d) ;;
      s <- set s i (Z.of_nat d) v ;; set s j (Z.of_nat d) tmp).
  (** coordinate_array_sequences.rs 18-28, packed_coordinate_sequences.rs 18-28: [reverse]. *)
  Definition sq_reverse (s : T) : res T :=
    n <- size s ;;
    if Nat.leb n 1 then Ok s
    else
      last <- usub n 1 ;;
      forN (S (Nat.div last 2)) 0 s (fun i s => k <- usub last i ;; sq_swap s i k).
  (** coordinate_array_sequences.rs 81-91, packed_coordinate_sequences.rs 81-91: [copy_coord]. *)
  Definition sq_copy_coord (src : T) (sp : nat) (dest : T) (dp : nat) : res T :=
    forN (Z.to_nat (Z.min (dim src) (dim dest))) 0 dest (fun d dest =>
      v <- get src sp (Z.of_nat d) ;; set dest dp (Z.of_nat d) v).
  (** coordinate_array_sequences.rs 59-69, packed_coordinate_sequences.rs 59-69: [copy]. *)
  Definition sq_copy (src : T) (sp : nat) (dest : T) (dp len : nat) : res T :=
    forN len 0 dest (fun i dest => sq_copy_coord src (sp + i) dest (dp + i)).
  (** coordinate_array_sequences.rs 103-117, packed_coordinate_sequences.rs 103-117: [is_ring]. *)
  Definition sq_ends_equal (s : T) (n : nat) : res bool :=
    x0 <- get s 0 0 ;; l <- usub n 1 ;; x1 <- get s l 0 ;;
    if feqb x0 x1 then y0 <- get s 0 1 ;; y1 <- get s l 1 ;; Ok (feqb y0 y1) else Ok false.
  Definition sq_is_ring (s : T) : res bool :=
    n <- size s ;;
    if Nat.eqb n 0 then Ok true else if Nat.leb n 3 then Ok false else sq_ends_equal s n.
  (** coordinate_array_sequences.rs 154-167, packed_coordinate_sequences.rs 156-169: [create_closed_ring]. *)
  Definition sq_create_closed_ring (s : T) (sz : nat) : res T :=
    newseq <- create sz (dim s) ;;
    n <- size s ;;
    newseq <- sq_copy s 0 newseq 0 n ;;
    forN (sz - n) n newseq (fun i newseq => sq_copy s 0 newseq i 1).
  (** coordinate_array_sequences.rs 131-152, packed_coordinate_sequences.rs 131-154: [ensure_valid_ring]. *)
  Definition sq_ensure_valid_ring (s : T) : res T :=
    copy <- copy_of s ;;
    n <- size copy ;;
    if Nat.eqb n 0 then Ok copy
    else if Nat.leb n 3 then sq_create_closed_ring copy 4
    else
      c <- sq_ends_equal copy n ;;
      if c then Ok copy else sq_create_closed_ring s (n + 1).
  (** coordinate_array_sequences.rs 169-181, packed_coordinate_sequences.rs 171-186: [extend]. *)
  Definition sq_extend (s : T) (sz : nat) : res T :=
    newseq <- create sz (dim s) ;;
    n <- size s ;;
    newseq <- sq_copy s 0 newseq 0 n ;;
    if Nat.ltb 0 n then forN (sz - n) n newseq (fun i newseq => sq_copy s (n - 1) newseq i 1)
    else Ok newseq.
  (** coordinate_array_sequences.rs 195-217, packed_coordinate_sequences.rs 200-225: [is_equal]. *)
  Definition sq_is_equal (s1 s2 : T) : res bool :=
    n1 <- size s1 ;; n2 <- size s2 ;;
    if negb (Nat.eqb n1 n2) then Ok false
    else
      r <- forR n1 0 tt (fun i _ =>
        forR (Z.to_nat (Z.min (dim s1) (dim s2))) 0 tt (fun d _ =>
          v1 <- get s1 i (Z.of_nat d) ;; v2 <- get s2 i (Z.of_nat d) ;;
          Ok (if feqb v1 v2 then inl tt
              else if fis_nan v1 && fis_nan v2 then inl tt else inr false))) ;;
      match r with inr b => Ok b | inl _ => Ok true end.
  (** coordinate_array_sequences.rs 226-235, packed_coordinate_sequences.rs 234-243: [min_coordinate]. *)
  Definition sq_min_coordinate (s : T) : res (option Coordinate) :=
    n <- size s ;;
    forN n 0 None (fun i m =>
      c <- coord s i ;;
      Ok (match m with None => Some c | Some b => if compare_to b c >? 0 then Some c else m end)).
  (** coordinate_array_sequences.rs 264-279, packed_coordinate_sequences.rs 272-287: [min_coordinate_index_sequence_from_to]. *)
  Definition sq_min_index_from_to (s : T) (from to : nat) : res Z :=
    r <- forN (S to - from) from ((-1), None) (fun i '(k, m) =>
      c <- coord s i ;;
      Ok (match m with
          | None => (i32_wrap (Z.of_nat i), Some c)
          | Some b => if compare_to b c >? 0 then (i32_wrap (Z.of_nat i), Some c) else (k, m)
          end)) ;;
    Ok (usize_wrap (fst r)).
  (** coordinate_array_sequences.rs 245-251, packed_coordinate_sequences.rs 253-259: [min_coordinate_index_sequence]. *)
  Definition sq_min_index (s : T) : res Z :=
    n <- size s ;; l <- usub n 1 ;; sq_min_index_from_to s 0 l.
  (** coordinate_array_sequences.rs 373-382, packed_coordinate_sequences.rs 384-393: [index_of]. *)
  Definition sq_index_of (c : Coordinate) (s : T) : res Z :=
    n <- size s ;;
    r <- forR n 0 tt (fun i _ =>
      x <- get s i 0 ;;
      b <- (if feqb (cx c) x then y <- get s i 1 ;; Ok (feqb (cy c) y) else Ok false) ;;
      Ok (if b : bool then inr (i32_wrap (Z.of_nat i)) else inl tt)) ;;
    match r with inr k => Ok k | inl _ => Ok (-1) end.
  (** coordinate_array_sequences.rs 324-362, packed_coordinate_sequences.rs 335-373: [scroll_coordinate_index_ensure_ring]. *)
  Definition sq_scroll_ring (s : T) (i : nat) (ensure_ring : bool) : res T :=
    if Nat.leb i 0 then Ok s
    else
      copy <- copy_of s ;;
      n <- size s ;;
      last <- (if ensure_ring then usub n 1 else Ok n) ;;
      forN last 0 s (fun j s =>
        s <- forN (Z.to_nat (dim s)) 0 s (fun k s =>
          v <- get copy (Nat.modulo (i + j) last) (Z.of_nat k) ;; set s j (Z.of_nat k) v) ;;
        if ensure_ring then
          forN (Z.to_nat (dim s)) 0 s (fun k s =>
            v <- get s 0 (Z.of_nat k) ;; set s last (Z.of_nat k) v)
        else Ok s).
  (** coordinate_array_sequences.rs 303-312, packed_coordinate_sequences.rs 314-323: [scroll_coordinate_index]. *)
  Definition sq_scroll_index (s : T) (i : nat) : res T :=
    r <- sq_is_ring s ;; sq_scroll_ring s i r.
  (** coordinate_array_sequences.rs 288-294, packed_coordinate_sequences.rs 296-305: [scroll_coordinate]. *)
  Definition sq_scroll_coordinate (s : T) (c : Coordinate) : res T :=
    i <- sq_index_of c s ;;
    if i <=? 0 then Ok s else sq_scroll_index s (Z.to_nat i).
End Seqs.

(** The array instance (coordinate_array_sequences.rs). *)
Definition arr_size (s : CSeq) : res nat := Ok (seq_size s).
Definition arr_create (n : nat) (d : Z) : res CSeq := Ok (seq_create n d).
Definition seq_swap := sq_swap CSeq sdim seq_get seq_set.
Definition seq_reverse := sq_reverse CSeq arr_size sdim seq_get seq_set.
Definition seq_is_ring := sq_is_ring CSeq arr_size seq_get.
Definition seq_create_closed_ring := sq_create_closed_ring CSeq arr_size sdim seq_get seq_set arr_create.
Definition seq_ensure_valid_ring := sq_ensure_valid_ring CSeq arr_size sdim seq_get seq_set seq_copy arr_create.
Definition seq_extend := sq_extend CSeq arr_size sdim seq_get seq_set arr_create.
Definition seq_is_equal := sq_is_equal CSeq arr_size sdim seq_get.
Definition seq_min_coordinate := sq_min_coordinate CSeq arr_size seq_coord.
Definition seq_min_index := sq_min_index CSeq arr_size seq_coord.
Definition seq_min_index_from_to := sq_min_index_from_to CSeq seq_coord.
Definition seq_index_of := sq_index_of CSeq arr_size seq_get.
Definition seq_scroll_ring := sq_scroll_ring CSeq arr_size sdim seq_get seq_set seq_copy.
Definition seq_scroll_index := sq_scroll_index CSeq arr_size sdim seq_get seq_set seq_copy.
Definition seq_scroll_coordinate := sq_scroll_coordinate CSeq arr_size sdim seq_get seq_set seq_copy.

(** The packed instance (packed_coordinate_sequences.rs). *)
Definition packed_swap := sq_swap Packed pdim packed_get packed_set.
Definition packed_reverse := sq_reverse Packed packed_size pdim packed_get packed_set.
Definition packed_is_ring := sq_is_ring Packed packed_size packed_get.
Definition packed_create_closed_ring := sq_create_closed_ring Packed packed_size pdim packed_get packed_set packed_create.
Definition packed_ensure_valid_ring :=
  sq_ensure_valid_ring Packed packed_size pdim packed_get packed_set packed_copy packed_create.
Definition packed_extend := sq_extend Packed packed_size pdim packed_get packed_set packed_create.
Definition packed_is_equal := sq_is_equal Packed packed_size pdim packed_get.
Definition packed_min_coordinate := sq_min_coordinate Packed packed_size packed_coord.
Definition packed_min_index := sq_min_index Packed packed_size packed_coord.
Definition packed_index_of := sq_index_of Packed packed_size packed_get.
Definition packed_scroll_ring := sq_scroll_ring Packed packed_size pdim packed_get packed_set packed_copy.
Definition packed_scroll_index := sq_scroll_index Packed packed_size pdim packed_get packed_set packed_copy.
Definition packed_scroll_coordinate := sq_scroll_coordinate Packed packed_size pdim packed_get packed_set packed_copy.

(** ** coordinate_sequence_comparator.rs *)
(** coordinate_sequence_comparator.rs 31-50: [compare_f64]. *)
Definition compare_f64 (a b : f64) : Z :=
  if fltb a b then -1
  else if fgtb a b then 1
  else if fis_nan a then (if fis_nan b then 0 else -1)
  else if fis_nan b then 1 else 0.
(** coordinate_sequence_comparator.rs 138-153: [compare_coordinate]; [i as usize] from [i32]. *)
Definition compare_coordinate (s1 s2 : CSeq) (i dimension : Z) : res Z :=
  let k := Z.to_nat (usize_wrap i) in
  r <- forR (Z.to_nat dimension) 0 tt (fun d _ =>
    o1 <- seq_get s1 k (Z.of_nat d) ;; o2 <- seq_get s2 k (Z.of_nat d) ;;
    let comp := compare_f64 o1 o2 in
    Ok (if negb (comp =? 0) then inr comp else inl tt)) ;;
  match r with inr c => Ok c | inl _ => Ok 0 end.
(** coordinate_sequence_comparator.rs 77-126: [compare_coordinate_array_sequence]; [limit] is
    [dimension_limit] ([i32::MAX] by default). *)
Definition seq_compare (limit : Z) (s1 s2 : CSeq) : res Z :=
  let size1 := seq_size s1 in
  let size2 := seq_size s2 in
  let dim1 := sdim s1 in
  let dim2 := sdim s2 in
  let min_dim := if dim2 <? dim1 then dim2 else dim1 in
  let dim_limited := limit <=? min_dim in
  let min_dim := if dim_limited then limit else min_dim in
  if negb dim_limited && (dim1 <? dim2) then Ok (-1)
  else if negb dim_limited && (dim1 >? dim2) then Ok 1
  else
    r <- forR (Nat.min size1 size2) 0 tt (fun i _ =>
      c <- compare_coordinate s1 s2 (i32_wrap (Z.of_nat i)) min_dim ;;
      Ok (if negb (c =? 0) then inr c else inl tt)) ;;
    match r with
    | inr c => Ok c
    | inl _ => if Nat.ltb (Nat.min size1 size2) size1 then Ok 1
               else if Nat.ltb (Nat.min size1 size2) size2 then Ok (-1) else Ok 0
    end.
