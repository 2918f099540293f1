(* Specification of BASIC arrays: a function from subscripts to values. *)
From Verif Require Import Base ArrayModel.

(* Number of elements requested by DIM with the given maxima (from 0). *)
Definition elements_wanted (max : list N) : N := fold_right (fun m a => (m + 1) * a)%N 1%N max.

(* Subscripts acceptable for the given maxima. *)
Definition in_bounds (max idx : list N) : Prop := Forall2 (fun i m => (i <= m)%N) idx max.

Fixpoint idx_eqb (a c : list N) : bool :=
  match a, c with
  | [], [] => true
  | x :: a', y :: c' => (x =? y)%N && idx_eqb a' c'
  | _, _ => false
  end.

(* The value last stored at idx by a history of assignments. *)
Definition last_stored {A} (zero : A) (ws : list (list N * A)) (idx : list N) : A :=
  fold_left (fun acc w => if idx_eqb idx (fst w) then snd w else acc) ws zero.

(* Execute a history of assignments; a rejected one changes nothing, undefined
   behaviour is propagated. *)
Fixpoint store_all {A} (p : array A) (ws : list (list N * A)) : ares (array A) :=
  match ws with
  | [] => AOk p
  | (i, v) :: r =>
      match write_element p i v with
      | AOk p' => store_all p' r
      | AFail => store_all p r
      | ACrash => ACrash
      end
  end.
