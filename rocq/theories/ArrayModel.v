(* Model of Basic/arrays.c: array descriptors and element addressing. *)
From Verif Require Import Base.

(* MAX_DIMENSIONS, MAX_ELEMENTS, Basic/arrays.h:9-11 *)
Definition MAX_DIMENSIONS : nat := 2.
Definition MAX_ELEMENTS : N := 65536.

(* Outcome of an array operation: value, rejection (false/NULL), or undefined
   behaviour (division by zero, access outside the allocation). *)
Inductive ares (A : Type) :=
| AOk (a : A)
| AFail
| ACrash.
Arguments AOk {A} a.
Arguments AFail {A}.
Arguments ACrash {A}.

(* compute_total_elements, Basic/arrays.c:10-23; all values are unsigned *)
Fixpoint total_elements_loop (base : N) (max : list N) (elements : N) : ares N :=
  match max with
  | [] => AOk elements
  | m :: r =>
      if (m <? base)%N then AFail
      else
        let size := u32 (m - base + 1) in
        if (elements =? 0)%N then ACrash      (* MAX_ELEMENTS / 0 *)
        else if (MAX_ELEMENTS / elements <? size)%N then AFail
        else total_elements_loop base r (u32 (elements * size))
  end.

Definition compute_total_elements (base : N) (max : list N) : ares N :=
  total_elements_loop base max 1.

(* struct array_size, Basic/arrays.h:13-18; base, dimensions and max are
   unsigned short. as_max holds max[0..dimensions-1]. *)
Record array_size := mkSize {
  as_base : N;
  as_max : list N;
  as_elements : N
}.

(* init_array_size, Basic/arrays.c:25-41 *)
Definition init_array_size (base : N) (max : list N) : ares array_size :=
  if Nat.ltb (length max) 1 || Nat.ltb MAX_DIMENSIONS (length max) then AFail
  else
    match compute_total_elements base max with
    | AOk e => AOk (mkSize (u16 base) (map u16 max) e)
    | AFail => AFail
    | ACrash => ACrash
    end.

(* the range loop of compute_element_offset, Basic/arrays.c:48-51 *)
Fixpoint indexes_in_range (base : N) (max indexes : list N) : bool :=
  match max, indexes with
  | [], [] => true
  | m :: ms, i :: is => negb ((i <? base) || (m <? i))%N && indexes_in_range base ms is
  | _, _ => false
  end.

(* compute_element_offset, Basic/arrays.c:43-66. The number of dimensions is
   the length of indexes. The subtractions are done in unsigned arithmetic
   (or int, for size1, where max[1] and base are shorts) and cannot wrap below
   zero after the range check when base <= max. *)
Definition compute_element_offset (p : array_size) (indexes : list N) : ares N :=
  if negb (Nat.eqb (length indexes) (length (as_max p))) then AFail
  else if negb (indexes_in_range (as_base p) (as_max p) indexes) then AFail
  else
    match indexes, as_max p with
    | [i0], _ => AOk (i0 - as_base p)%N
    | [i0; i1], [_; m1] =>
        let size1 := u32 (m1 - as_base p + 1) in
        let base1 := u32 ((i0 - as_base p) * size1) in
        AOk (u32 (base1 + i1 - as_base p))
    | _, _ => ACrash                          (* fatal internal error *)
    end.

(* struct numeric_array / struct string_array, Basic/arrays.h:20-32 *)
Record array (A : Type) := mkArray {
  ar_size : array_size;
  ar_val : list A
}.
Arguments mkArray {A}.
Arguments ar_size {A}.
Arguments ar_val {A}.

(* new_numeric_array / new_string_array, Basic/arrays.c:68-76 and 93-101.
   zero is 0.0 for numbers and the null pointer for strings (ecalloc). *)
Definition new_array {A} (zero : A) (base : N) (max : list N) : ares (array A) :=
  match init_array_size base max with
  | AOk sz => AOk (mkArray sz (repeat zero (N.to_nat (as_elements sz))))
  | AFail => AFail
  | ACrash => ACrash
  end.

(* compute_numeric_element / compute_string_element, Basic/arrays.c:82-91 and
   111-118, followed by a read through the address. *)
Definition read_element {A} (p : array A) (indexes : list N) : ares A :=
  match compute_element_offset (ar_size p) indexes with
  | AOk off =>
      match nth_error (ar_val p) (N.to_nat off) with
      | Some v => AOk v
      | None => ACrash
      end
  | AFail => AFail
  | ACrash => ACrash
  end.

(* the same, followed by a write through the address *)
Definition write_element {A} (p : array A) (indexes : list N) (v : A) : ares (array A) :=
  match compute_element_offset (ar_size p) indexes with
  | AOk off =>
      match nth_error (ar_val p) (N.to_nat off) with
      | Some _ => AOk (mkArray (ar_size p) (list_upd (ar_val p) (N.to_nat off) v))
      | None => ACrash
      end
  | AFail => AFail
  | ACrash => ACrash
  end.

(* the default bounds of dimension_numeric_auto / dimension_string_auto,
   Basic/run.c:1286-1288 and 1372-1374 *)
Definition auto_max (indexes : list N) : list N :=
  map (fun i => if (i <? 10)%N then 10%N else i) indexes.
