(* C08, C09, C10 at the level of array objects. *)
From Verif Require Import Base ArrayModel ArraySpec ArrayProofs.

(* C09: DIM succeeds exactly for one or two dimensions and at most 65536
   elements, and otherwise is rejected (never undefined), for subscript maxima
   below 2^32-1. *)
Theorem C09_dim_iff : forall (A : Type) (zero : A) max,
  Forall (fun m => (m < 4294967295)%N) max ->
  ((length max = 1 \/ length max = 2) /\ (elements_wanted max <= 65536)%N ->
     exists p, new_array zero 0 max = AOk p) /\
  (~ ((length max = 1 \/ length max = 2) /\ (elements_wanted max <= 65536)%N) ->
     new_array zero 0 max = AFail).
Proof. exact dim_iff. Qed.
Print Assumptions C09_dim_iff.

(* C09 is violated at the remaining representable maximum: DIM A(4294967295)
   creates an array with room for no element, whose elements 0..65535 pass the
   subscript check and lie outside the allocation. *)
Theorem C09_dim_wraps_refuted : exists max (p : array N),
  new_array 0%N 0 max = AOk p /\ elements_wanted max <> as_elements (ar_size p) /\
  read_element p [0%N] = ACrash /\ (forall v, write_element p [65535%N] v = ACrash).
Proof. exact dim_wraps. Qed.
Print Assumptions C09_dim_wraps_refuted.

(* C09: DIM A(5,4294967295) divides by zero (the wrapped size is
   processed first because subscripts are popped in reverse). *)
Theorem C09_dim_div_zero_refuted : exists max, new_array 0%N 0 max = ACrash.
Proof. exact dim_div_zero. Qed.
Print Assumptions C09_dim_div_zero_refuted.

(* C08 and C09: after DIM, any history of assignments and then any read behaves
   like independent variables indexed by the subscripts; accesses outside the
   bounds are rejected and change nothing; no access is undefined. *)
Theorem C08_array_is_function : forall (A : Type) (zero : A) max ws,
  Forall (fun m => (m < 4294967295)%N) max ->
  (length max = 1 \/ length max = 2) /\ (elements_wanted max <= 65536)%N ->
  exists p p', new_array zero 0 max = AOk p /\ store_all p ws = AOk p' /\
    (forall idx, in_bounds max idx -> read_element p' idx = AOk (last_stored zero ws idx)) /\
    (forall idx, ~ in_bounds max idx ->
       read_element p' idx = AFail /\ forall v, write_element p' idx v = AFail).
Proof. exact @array_refines. Qed.
Print Assumptions C08_array_is_function.

(* C10: the automatic bounds are max(10, subscript), and make the access valid. *)
Theorem C10_auto_bounds : forall idx,
  auto_max idx = map (N.max 10) idx /\ in_bounds (auto_max idx) idx.
Proof. exact auto_bounds. Qed.
Print Assumptions C10_auto_bounds.

Example C08_example :
  match new_array 0%N 0 [3; 4]%N with
  | AOk p =>
      match store_all p [([1; 2], 7); ([2; 1], 8); ([3; 4], 9); ([4; 0], 1); ([1; 2], 5)]%N with
      | AOk q => (read_element q [1; 2], read_element q [2; 1], read_element q [3; 4],
                  read_element q [0; 0], read_element q [4; 0], read_element q [1])%N
                 = (AOk 5, AOk 8, AOk 9, AOk 0, AFail, AFail)%N
      | _ => False
      end
  | _ => False
  end.
Proof. vm_compute. reflexivity. Qed.
