(** Grammars and headers of precompressed blocks (C30, C31), pairs of special symbols (C32). *)
From Coq Require Import List NArith Arith Bool.
From Verif Require Import Base ModelUtils ModelGrammar SpecGrammar ProofGrammar1 ProofGrammar4.
Import ListNotations.
Open Scope N_scope.

(** C32: with s special symbols, Grammar::numberOfSpecialPair maps the ordered pairs of their
    indices one to one onto 0 .. s*s-1, Grammar::specialPair gives the pair back, and numbers keep
    their meaning when special symbols are added. *)
Theorem C32_special_pairs : forall specials, (length specials <= 255)%nat ->
  let s := N.of_nat (length specials) in
  (forall i j a b, nth_error specials (N.to_nat i) = Some a -> nth_error specials (N.to_nat j) = Some b ->
     numberOfSpecialPair i j < s * s /\ specialPair specials (numberOfSpecialPair i j) = Ok (pair16 a b)) /\
  (forall i j k l, i < s -> j < s -> k < s -> l < s -> numberOfSpecialPair i j = numberOfSpecialPair k l -> i = k /\ j = l) /\
  (forall n, n < s * s -> exists i j, i < s /\ j < s /\ numberOfSpecialPair i j = n) /\
  (forall n x, n < s * s -> specialPair (specials ++ x) n = specialPair specials n).
Proof. exact C32_all. Qed.
Print Assumptions C32_special_pairs.

Example C32_case :
  let specials := [7; 200; 31; 5; 66] in
  numberOfSpecialPair 4 1 = 22 /\ numberOfSpecialPair 1 4 = 18 /\ numberOfSpecialPair 3 3 = 9 /\
  specialPair specials 22 = Ok (pair16 66 200) /\ specialPair specials 18 = Ok (pair16 200 66) /\
  specialPair specials 9 = Ok (pair16 5 5) /\ specialPair specials 25 = UB.
Proof. vm_compute. repeat split. Qed.

(** C31: a grammar that meets [writable] is written, takes as many bytes as writeGrammar returns, and
    is read back with the same special symbols, rules and freed symbols; reading stops
    exactly behind it. *)
Theorem C31_grammar_round_trip : forall g rules following, writable g rules ->
  exists bytes g', writeGrammar g = Ok bytes /\ are_bytes bytes /\ grammarBytes g = Ok (length bytes) /\
    readGrammar (bytes_bits (bytes ++ following)) = Ok (g', bytes_bits following) /\ sameGrammar g g'.
Proof. exact C31_all. Qed.
Print Assumptions C31_grammar_round_trip.

Example C31_case : writable someGrammar someRules /\
  freedSymbols someGrammar = Ok [(7 * 256 + 7, 7); (9 * 256 + 9, 9); (7 * 256 + 9, 100)] /\
  writeGrammar someGrammar = Ok [2; 2; 7; 9; 64; 50; 9; 7; 1; 100; 16; 1; 2; 50; 7; 9].
Proof. split; [exact someGrammar_writable|vm_compute; auto]. Qed.

(** C30: the header of a precompressed block is read back and reading stops exactly behind it; the end
    marker is recognised (a header starting with a positive size is not taken for it). *)
Theorem C30_header_round_trip : forall g rules size slices following, writable g rules -> 0 < size < 2 ^ 56 -> slices < 2 ^ 56 ->
  exists bytes g', writePreHeader size slices g = Ok (bytes, length bytes) /\ are_bytes bytes /\
    readPreHeader (bytes_bits (bytes ++ following)) = Ok (Some (size, slices, g'), bytes_bits following) /\ sameGrammar g g'.
Proof. exact C30_all. Qed.
Print Assumptions C30_header_round_trip.

Theorem C30_end_marker : forall following,
  readPreHeader (bytes_bits (writeEmptyHeader ++ following)) = Ok (None, bytes_bits following).
Proof. exact C30_end_all. Qed.
Print Assumptions C30_end_marker.

(** The same for the format of the stand-alone preprocessor, header and data. *)
Theorem C30_stand_alone : forall g rules data following, writable g rules -> data <> [] -> are_bytes data ->
  N.of_nat (length data) < 2 ^ 56 ->
  exists bytes g', writePreHeaderCompressed (N.of_nat (length data)) g = Ok (bytes, length bytes) /\
    readPreHeaderCompressed (bytes_bits (bytes ++ data ++ following)) = Ok (Some (g', data), bytes_bits following) /\ sameGrammar g g'.
Proof. exact C30_compressed_all. Qed.
Print Assumptions C30_stand_alone.

Example C30_case :
  match writePreHeader 100000 3 someGrammar with
  | Ok (bytes, n) => n = length bytes /\ firstn 4 bytes = [160; 141; 6; 3] /\
      match readPreHeader (bytes_bits (bytes ++ [1; 2])) with
      | Ok (Some (100000, 3, g), s) => s = bytes_bits [1; 2] /\ g_rhs g = g_rhs someGrammar
      | _ => False
      end
  | _ => False
  end.
Proof. vm_compute. auto. Qed.

(** The size must be positive (the compressor writes no empty block): a size of zero is taken for the end. *)
Theorem C30_size_zero_refuted : exists g rules bytes, writable g rules /\ writePreHeader 0 1 g = Ok (bytes, length bytes) /\
  exists s, readPreHeader (bytes_bits bytes) = Ok (None, s).
Proof.
  exists someGrammar, someRules, [0; 1; 2; 2; 7; 9; 64; 50; 9; 7; 1; 100; 16; 1; 2; 50; 7; 9]. split; [exact someGrammar_writable|]. split; [vm_compute; reflexivity|].
  eexists. vm_compute. reflexivity.
Qed.
Print Assumptions C30_size_zero_refuted.
