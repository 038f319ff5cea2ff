(** * RangeSet: model of src/lib/range_set.h and src/lib/range_set.cpp. *)
From Coq Require Import ZArith List String Bool Floats.SpecFloat.
From Verif Require Import Base Range Indexer Interface.
Import ListNotations.
Open Scope Z_scope.

(** IEEE single precision (24 bit precision, emax 128), round to nearest even,
    through the executable specification of the Coq standard library:
    float(int), float division and std::ceil followed by int()
    (range_set.cpp:33).  ceil of a float is exact; converting a value that is
    not an int is undefined. *)
Definition f32_of_int (z : Z) : spec_float := binary_normalize 24 128 z 0 false.
Definition f32_div (x y : spec_float) : spec_float := SFdiv 24 128 x y.
Definition f32_ceil (x : spec_float) : option Z :=
  match x with
  | S754_zero _ => Some 0
  | S754_finite s m e =>
      let v := if s then Z.neg m else Z.pos m in
      Some (if 0 <=? e then v * 2 ^ e else - (- v / 2 ^ (- e)))
  | _ => None
  end.

(** subRangeSizePerDivision[i] (range_set.cpp:33). *)
Definition sub_size (len n : Z) : res Z :=
  match f32_ceil (f32_div (f32_of_int len) (f32_of_int n)) with
  | Some z => conv z
  | None => UB FloatToInt
  end.

(** The loop computing subRangeSizePerDivision (range_set.cpp:31-34). *)
Fixpoint sub_sizes (lo up dims : list Z) : res (list Z) :=
  match lo, up with
  | l :: lo', u :: up' =>
      match dims with
      | n :: dims' =>
          len <- isub u l ;;
          s <- sub_size len n ;;
          ss <- sub_sizes lo' up' dims' ;;
          Ok (s :: ss)
      | [] => UB OutOfBounds
      end
  | _, _ => Ok []
  end.

(** lowers[i], uppers[i] for one position of the indexer (range_set.cpp:40-43). *)
Fixpoint sub_bounds (lo up sizes idx : list Z) : res (list Z * list Z) :=
  match lo, up with
  | l :: lo', u :: up' =>
      match sizes, idx with
      | s :: sizes', k :: idx' =>
          m <- imul k s ;;
          a <- iadd l m ;;
          b <- iadd a s ;;
          r <- sub_bounds lo' up' sizes' idx' ;;
          Ok (a :: fst r, Z.min b u :: snd r)
      | _, _ => UB OutOfBounds
      end
  | _, _ => Ok ([], [])
  end.

(** A range_set object: the container of sub ranges and _superRange
    (range_set.h:11-12, 24). *)
Record range_set : Type := mkRangeSet {
  rs_ranges : iface range;
  rs_super : range
}.

(** range_set::setup (range_set.cpp:24-48); [rs] is the object before.  The
    order of the reads of superRange and _superRange is immaterial since they
    are equal copies. *)
Definition rs_setup (fuel : nat) (rs : range_set) (super : range) (dims : list Z) : out range_set :=
  liftr rs (range_copy super) (fun sup =>
  let rs1 := mkRangeSet (rs_ranges rs) sup in
  liftr rs1 (range_of_dims (r_nd sup) dims) (fun dr =>
  obind (omap (fun i => mkRangeSet i sup) (iface_resize range_empty (rs_ranges rs) dr)) (fun rs2 =>
  let nd := r_nd (if_range (rs_ranges rs2)) in
  liftr rs2 (sub_sizes (r_lower sup) (r_upper sup) dims) (fun sizes =>
  liftr rs2 (iface_indexer (rs_ranges rs2) (if_range (rs_ranges rs2))) (fun ix0 =>
  omap (fun i => mkRangeSet i sup)
    (for_indexer fuel ix0 (fun ix i =>
       liftr i (sub_bounds (r_lower sup) (r_upper sup) sizes (ix_idx ix)) (fun lu =>
       liftr i (range_make nd (fst lu) (snd lu)) (fun r =>
       liftr i (iface_put i ix r) Done))) (rs_ranges rs2))))))).

(** range_set() (range_set.cpp:9-12) and range_set(superRange, numSubdivisions)
    (range_set.cpp:14-17). *)
Definition rs_default : range_set := mkRangeSet (mkIface range_empty []) range_empty.
Definition rs_new (fuel : nat) (super : range) (dims : list Z) : out range_set :=
  rs_setup fuel rs_default super dims.
