(* Model of Basic/linemap.c: line number -> index hash table. *)
From Verif Require Import Base.

(* LINE_HASH_SIZE, Basic/linemap.c:16 *)
Definition LINE_HASH_SIZE : N := 397.

(* struct line_map, Basic/linemap.c:18-23. A bucket is the chain of its nodes
   from the head; node storage is represented by the chains and the count. *)
Record linemap := mkLineMap {
  lm_hash : list (list (N * N));
  lm_allocated : N;
  lm_count : N
}.

(* new_line_map, Basic/linemap.c:25-32 *)
Definition new_line_map (lines : N) : linemap :=
  mkLineMap (repeat [] (N.to_nat LINE_HASH_SIZE)) lines 0.

(* bucket index, Basic/linemap.c:49 and 59 *)
Definition line_bucket (basic_line : N) : nat := N.to_nat (basic_line mod LINE_HASH_SIZE).

(* insert_line_mapping, Basic/linemap.c:41-54; None when it returns false *)
Definition insert_line_mapping (m : linemap) (basic_line val : N) : option linemap :=
  if (lm_count m =? lm_allocated m)%N then None
  else
    let h := line_bucket basic_line in
    Some (mkLineMap (list_upd (lm_hash m) h ((basic_line, val) :: nth h (lm_hash m) []))
                    (lm_allocated m) (lm_count m + 1)).

(* the chain walk, Basic/linemap.c:60-65 *)
Fixpoint chain_lookup (ch : list (N * N)) (basic_line : N) : option N :=
  match ch with
  | [] => None
  | (k, v) :: r => if (k =? basic_line)%N then Some v else chain_lookup r basic_line
  end.

(* lookup_line_mapping, Basic/linemap.c:56-67 *)
Definition lookup_line_mapping (m : linemap) (basic_line : N) : option N :=
  chain_lookup (nth (line_bucket basic_line) (lm_hash m) []) basic_line.
