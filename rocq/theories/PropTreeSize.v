(** C58: the sizes of the bit vectors of a wavelet tree. *)
From Coq Require Import List NArith Arith Bool.
From Verif Require Import Base ModelWavelet ModelTreeSize SpecRuns ProofTreeSize.
Import ListNotations.
Open Scope nat_scope.

(** The number of bits that the verbose output reports is the sum, over the maximal runs of the block, of the lengths of the code of the
    byte and of the code of the run length.  The root has one bit for each run. *)
Theorem C58_total : forall worth src w, src <> [] -> buildTree worth src = Ok w -> exists runs cs, is_runs_of src runs /\
  Forall2 (fun r c => integerCode (w_intCodes w) (w_W w) (N.of_nat (snd r)) = Ok c) runs cs /\
  totalBits (w_root w) = fold_right (fun rc a => length (match codeOf (w_codes w) (fst (fst rc)) with Some z => z | None => [] end) + length (snd rc) + a) 0 (List.combine runs cs) /\
  exists n, look (w_root w) [] = Some n /\ length (bitVector n) = length runs.
Proof. exact tree_total. Qed.
Print Assumptions C58_total.

(** Six runs; the byte codes have 1, 2, 1, 2, 1 and 2 bits, those of the lengths 1, 2, 5, 1, 1 and 2. *)
Example C58_total_ex : match buildTree (fun _ _ _ => false) [97; 98; 98; 97; 97; 97; 99; 97; 98; 98]%N with
  | Ok w => (w_codes w, map (fun k => integerCode (w_intCodes w) (w_W w) k) [1; 2; 3]%N, totalBits (w_root w)) =
    ([(97, [false]); (98, [true; false]); (99, [true; true])]%N, [Ok [false]; Ok [true; true]; Ok [true; false; true; false; true]], 21)
  | _ => False end.
Proof. vm_compute. reflexivity. Qed.

(** rank counts the occurrences of a bit among the first ones, for each index, also behind the end. *)
Theorem C58_rank : forall n bit i, rank n bit i = Ok (count_occ bool_dec (firstn i (bitVector n)) bit).
Proof. exact rank_spec. Qed.
Print Assumptions C58_rank.

Example C58_rank_ex : map (rank (mkNode [true; false; false; true; false] None) false) [0; 1; 2; 4; 5; 9] = [Ok 0; Ok 0; Ok 1; Ok 2; Ok 3; Ok 3] /\
  rank (mkNode [true; false; false; true; false] None) true 4 = Ok 2 /\ rank (mkNode [] None) true 3 = Ok 0.
Proof. repeat split; vm_compute; reflexivity. Qed.

(** No node has more bits than its parent has bits leading to it. *)
Theorem C58_children : forall worth src w p n m b, src <> [] -> buildTree worth src = Ok w -> look (w_root w) p = Some n -> look (w_root w) (p ++ [b]) = Some m ->
  exists k, rank n b (length (bitVector n)) = Ok k /\ length (bitVector m) <= k.
Proof. exact tree_children. Qed.
Print Assumptions C58_children.

Example C58_children_ex : match buildTree (fun _ _ _ => false) [97; 98; 98; 97; 97; 97; 99; 97; 98; 98]%N with
  | Ok w => match look (w_root w) [], look (w_root w) [true] with
    | Some n, Some m => (rank n true (length (bitVector n)), bitVector m) = (Ok 3, [false; true; false])
    | _, _ => False end
  | _ => False end.
Proof. vm_compute. reflexivity. Qed.
