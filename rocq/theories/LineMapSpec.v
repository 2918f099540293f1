(* Specification of the line-number index: the most recent entry wins. *)
From Verif Require Import Base LineMapModel.

(* The value of the last pair with key k in a history of insertions. *)
Fixpoint latest_entry (kvs : list (N * N)) (k : N) : option N :=
  match kvs with
  | [] => None
  | (k', v) :: r =>
      match latest_entry r k with
      | Some w => Some w
      | None => if (k =? k')%N then Some v else None
      end
  end.

(* Insert a history; a refused insertion leaves the map as it was. *)
Definition insert_try (m : linemap) (kv : N * N) : linemap :=
  match insert_line_mapping m (fst kv) (snd kv) with Some m' => m' | None => m end.

Definition insert_all (cap : N) (kvs : list (N * N)) : linemap :=
  fold_left insert_try kvs (new_line_map cap).
