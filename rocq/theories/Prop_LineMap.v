(* C06: the line-number index. *)
From Verif Require Import Base LineMapModel LineMapSpec LineMapProofs.

(* C06: lookups see the latest of the insertions that fitted the capacity. *)
Theorem C06_lookup_is_latest : forall cap kvs k,
  lookup_line_mapping (insert_all cap kvs) k = latest_entry (firstn (N.to_nat cap) kvs) k.
Proof. exact line_map_latest. Qed.
Print Assumptions C06_lookup_is_latest.

(* C06: an insertion is refused exactly when the capacity is used up. *)
Theorem C06_refused_iff_full : forall cap kvs k v,
  insert_line_mapping (insert_all cap kvs) k v = None <-> (cap <= N.of_nat (length kvs))%N.
Proof. exact line_map_refuses. Qed.
Print Assumptions C06_refused_iff_full.

(* 10, 407 and 804 share a bucket *)
Example C06_example :
  let m := insert_all 4 [(10, 0); (407, 1); (10, 2); (804, 3); (804, 4)]%N in
  lookup_line_mapping m 10 = Some 2%N /\ lookup_line_mapping m 407 = Some 1%N /\
  lookup_line_mapping m 804 = Some 3%N /\ lookup_line_mapping m 1201 = None.
Proof. vm_compute. repeat split. Qed.
