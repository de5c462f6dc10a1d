(** Properties C09 to C12: Huffman code lengths, canonical codes, code table. *)
From Coq Require Import List NArith Arith Bool Lia Sorted.
From Verif Require Import Base Arrays ModelUtils ModelStreams ModelHeaders ModelHuffman SpecHeaders SpecHuffman.
From Verif Require Import ProofHuffman4 ProofHuffman5 ProofHuffman6 ProofHuffman7.
Import ListNotations.
Open Scope N_scope.

(** ** C09 *)
Theorem C09_complete_prefix_code : forall freqs, (2 <= length (filter (fun f => (0 <? f)%N) freqs))%nat ->
  sumN freqs < two64 ->
  exists lens, calculateHuffmanLengths freqs = Ok lens /\
    NoDup (map snd lens) /\ (forall s, In s (map snd lens) <-> occurs freqs s) /\
    complete (map (fun p => N.to_nat (fst p)) lens) /\ Forall (fun p => 1 <= fst p) lens /\
    StronglySorted (fun p q => fst q <= fst p /\
      nth (N.to_nat (snd p)) freqs 0 <= nth (N.to_nat (snd q)) freqs 0) lens.
Proof. exact C09_all. Qed.
Print Assumptions C09_complete_prefix_code.

Example C09_example :
  calculateHuffmanLengths [5; 0; 1; 9; 1; 3] = Ok [(4, 2); (4, 4); (3, 5); (2, 0); (1, 3)] /\
  kraft 4 [4; 4; 3; 2; 1]%nat = 2 ^ 4.
Proof. vm_compute. auto. Qed.

(** A single symbol gets one bit. *)
Theorem C09_single_symbol : forall before f after, Forall (fun x => x = 0) before -> 0 < f -> Forall (fun x => x = 0) after ->
  calculateHuffmanLengths (before ++ f :: after) = Ok [(1, N.of_nat (length before))].
Proof. exact single_symbol. Qed.
Print Assumptions C09_single_symbol.

Example C09_single_example : calculateHuffmanLengths [0; 0; 7; 0] = Ok [(1, 2)].
Proof. vm_compute. reflexivity. Qed.

(** The lengths grow at most logarithmically, hence stay below 45 for blocks under 2 GiB. *)
Theorem C09_length_bound : forall freqs lens, (2 <= length (filter (fun f => (0 <? f)%N) freqs))%nat ->
  sumN freqs < two64 -> calculateHuffmanLengths freqs = Ok lens ->
  Forall (fun p => fib (N.to_nat (fst p) + 2) <= sumN freqs) lens /\
  (sumN freqs < 2 ^ 31 -> Forall (fun p => fst p <= 44) lens) /\ Forall (fun p => fst p <= 91) lens.
Proof. exact length_bound. Qed.
Print Assumptions C09_length_bound.

Example C09_length_bound_example :
  calculateHuffmanLengths [1; 1; 1; 3; 4; 7; 11] = Ok [(6, 0); (6, 1); (5, 2); (4, 3); (3, 4); (2, 5); (1, 6)] /\
  fib 8 = 21 /\ sumN [1; 1; 1; 3; 4; 7; 11] = 28.
Proof. vm_compute. auto. Qed.

(** ** C10 *)
Theorem C10_optimal : forall freqs, (2 <= length (filter (fun f => (0 <? f)%N) freqs))%nat ->
  sumN freqs < two64 ->
  exists lens, calculateHuffmanLengths freqs = Ok lens /\ (forall s, In s (map snd lens) <-> occurs freqs s) /\
    forall assign : N -> list bool, prefix_free (map assign (map snd lens)) ->
      coded_length freqs lens <=
      coded_length freqs (map (fun s => (N.of_nat (length (assign s)), s)) (map snd lens)).
Proof. exact C10_all. Qed.
Print Assumptions C10_optimal.

Example C10_example :
  match calculateHuffmanLengths [5; 0; 1; 9; 1; 3] with
  | Ok lens => coded_length [5; 0; 1; 9; 1; 3] lens = 36 /\
      prefix_free (map (fun s => if s =? 0 then [true; true] else if s =? 2 then [false; false; false]
        else if s =? 3 then [true; false] else if s =? 4 then [false; false; true] else [false; true]) (map snd lens))
  | _ => False
  end.
Proof. exact C10_example_proof. Qed.

(** ** C11 *)
Theorem C11_canonical_codes : forall clen, length clen = 256%nat -> Forall (fun l => l < 256) clen -> codeTable clen ->
  exists codes, computeHuffmanCodes clen = Ok codes /\ length codes = 256%nat /\
    (forall i l c, nth_error clen i = Some l -> nth_error codes i = Some c ->
       (l = 0 -> c = 0) /\ c < 256 /\ (0 < l -> c < 2 ^ l)) /\
    forall i j li lj ci cj, nth_error clen i = Some li -> nth_error clen j = Some lj ->
      nth_error codes i = Some ci -> nth_error codes j = Some cj -> 0 < li -> 0 < lj ->
      (i <> j -> ~ is_prefix (be_bits (N.to_nat li) ci) (be_bits (N.to_nat lj) cj)) /\
      (li = lj -> (i < j)%nat -> ci < cj) /\
      (li = lj -> (i < j)%nat -> (forall k, (i < k < j)%nat -> nth_error clen k <> Some li) -> cj = ci + 1) /\
      (li < lj -> cj / 2 ^ (lj - li) < ci).
Proof. exact canonical_all. Qed.
Print Assumptions C11_canonical_codes.

Example C11_example :
  let clen := [2; 0; 4; 1; 4; 3] ++ repeat 0 250 in
  computeHuffmanCodes clen = Ok ([1; 0; 0; 1; 1; 1] ++ repeat 0 250) /\ codeTable clen.
Proof. exact C11_example_proof. Qed.

(** Kraft's inequality alone is not enough: with one code of length 1 and one of length 2
    the first is a prefix of the second. *)
Theorem C11_incomplete_code_refuted : exists clen codes, length clen = 256%nat /\
  kraft 2 (used clen) < 2 ^ 2 /\ computeHuffmanCodes clen = Ok codes /\
  nth_error clen 0 = Some 1 /\ nth_error clen 1 = Some 2 /\
  match nth_error codes 0, nth_error codes 1 with
  | Some c, Some d => is_prefix (be_bits 1 c) (be_bits 2 d)
  | _, _ => False
  end.
Proof. exact incomplete_code. Qed.
Print Assumptions C11_incomplete_code_refuted.

(** ** C12 *)
Theorem C12_table_round_trip : forall clen, length clen = 256%nat -> Exists (fun l => 0 < l) clen ->
  Forall (fun l => l < 128) clen ->
  exists bits, serializeShape clen = Ok bits /\ are_bytes (writeShapeBytes bits) /\
    forall following, deserializeShape (bytes_bits (writeShapeBytes bits) ++ bytes_bits following) =
      Ok (clen, length (writeShapeBytes bits), bytes_bits following).
Proof. exact C12_all. Qed.
Print Assumptions C12_table_round_trip.

Example C12_example :
  match serializeShape ([2; 0; 4; 1; 4; 3] ++ repeat 0 250) with
  | Ok bits => writeShapeBytes bits = [5; 5; 4; 166; 52] /\
      deserializeShape (bytes_bits ([5; 5; 4; 166; 52] ++ [17])) = Ok ([2; 0; 4; 1; 4; 3] ++ repeat 0 250, 5%nat, bytes_bits [17])
  | _ => False
  end.
Proof. vm_compute. auto. Qed.

(** With a length of 128 or more the bytes of the largest length are written in the wrong
    order.  By C09_length_bound the encoder never gets that far. *)
Theorem C12_long_code_refuted : exists clen bits, length clen = 256%nat /\ Forall (fun l => l < 256) clen /\
  serializeShape clen = Ok bits /\
  forall n rest, deserializeShape (bytes_bits (writeShapeBytes bits)) <> Ok (clen, n, rest).
Proof. exact long_code. Qed.
Print Assumptions C12_long_code_refuted.
