(** Properties C01-C08: integer codes, bit codes and run splitting. *)
From Coq Require Import List NArith Arith Bool Sorted Lia.
From Verif Require Import Base ModelUtils ModelRuns SpecRuns.
From Verif Require Import ProofUtils1 ProofUtils2 ProofUtils3 ProofRuns.
Import ListNotations.
Open Scope N_scope.

(** ** C01 *)
Theorem C01_packed_integer_round_trip : forall v, v < 2 ^ 56 ->
  exists packed bytes,
    packInteger v = Ok (packed, bytes) /\
    unpackInteger packed = Ok v /\
    (1 <= bytes <= 8)%nat /\
    v < 128 ^ N.of_nat bytes /\ (bytes = 1%nat \/ 128 ^ N.of_nat (bytes - 1) <= v) /\
    length (lowBytes bytes packed) = bytes /\
    Forall (fun b => b < 256) (lowBytes bytes packed) /\
    writePackedInteger packed = Ok (lowBytes bytes packed) /\
    forall rest,
      readPackedInteger (bytes_bits (lowBytes bytes packed) ++ rest) = Ok (v, bytes, rest) /\
      readStillPacked (bytes_bits (lowBytes bytes packed) ++ rest) = Ok (packed, rest).
Proof. exact pack_all. Qed.
Print Assumptions C01_packed_integer_round_trip.

Example C01_example : packInteger 300 = Ok (684, 2%nat) /\ lowBytes 2 684 = [172; 2] /\
  readPackedInteger (bytes_bits [172; 2; 7]) = Ok (300, 2%nat, bytes_bits [7]).
Proof. vm_compute. auto. Qed.

(** Beyond 56 bits the packer shifts past the word (or fails its assertion). *)
Theorem C01_from_2_pow_56_refuted : exists v, v < 2 ^ 64 /\ packInteger v = UB.
Proof. exists (2 ^ 56). vm_compute. auto. Qed.
Print Assumptions C01_from_2_pow_56_refuted.

(** ** C02 *)
Theorem C02_direct_integer_round_trip : forall v, 0 < v -> v < 2 ^ 64 ->
  exists bytes,
    packAndWriteInteger v = Ok bytes /\ (1 <= length bytes <= 10)%nat /\
    Forall (fun b => b < 256) bytes /\
    forall rest, readAndUnpackInteger (bytes ++ rest) = Ok (v, length bytes).
Proof. exact direct_all. Qed.
Print Assumptions C02_direct_integer_round_trip.

Example C02_example : packAndWriteInteger (2 ^ 64 - 1) = Ok (repeat 255 9 ++ [1]) /\
  readAndUnpackInteger (repeat 255 9 ++ [1; 77]) = Ok (2 ^ 64 - 1, 10%nat).
Proof. vm_compute. auto. Qed.

(** Zero writes no byte, so whatever follows is read instead. *)
Theorem C02_zero_refuted : exists rest,
  packAndWriteInteger 0 = Ok [] /\ readAndUnpackInteger ([] ++ rest) = Ok (5, 1%nat).
Proof. exists [5]. vm_compute. auto. Qed.
Print Assumptions C02_zero_refuted.

(** ** C03 *)
Theorem C03_reversed_packed_integer_round_trip : forall v, v < 2 ^ 56 ->
  exists packed bytes,
    packInteger v = Ok (packed, bytes) /\
    length (pushBitsRev packed (8 * bytes)) = (8 * bytes)%nat /\
    forall rest, readPackedIntegerRev (pushBitsRev packed (8 * bytes) ++ rest) = Ok (v, bytes, rest).
Proof. exact packRev_all. Qed.
Print Assumptions C03_reversed_packed_integer_round_trip.

Example C03_example :
  readPackedIntegerRev (pushBitsRev 684 16 ++ [true; false]) = Ok (300, 2%nat, [true; false]).
Proof. vm_compute. auto. Qed.

(** ** C04 *)
Theorem C04_unary_round_trip : forall n rest, (1 <= n)%nat ->
  unaryDecode (unaryCode n ++ rest) = (n, rest) /\ length (unaryCode n) = n.
Proof. exact (fun n rest H => conj (unary_spec n rest H) (unaryCode_length n H)). Qed.
Print Assumptions C04_unary_round_trip.

Example C04_example : unaryCode 4 = [false; false; false; true] /\
  unaryDecode ([false; false; false; true] ++ [false]) = (4%nat, [false]).
Proof. vm_compute. auto. Qed.

(** ** C05 *)
Theorem C05_binary_code_round_trip : forall lo hi n,
  lo <= n <= hi -> hi < 2 ^ 63 -> hi - lo + 1 <= 2 ^ 30 ->
  exists bits, binaryCode n lo hi = Ok bits /\
    N.log2 (hi - lo + 1) <= N.of_nat (length bits) <= N.log2_up (hi - lo + 1) /\
    forall rest, binaryDecode (bits ++ rest) lo hi = Ok (n, length bits, rest).
Proof. exact binary_spec. Qed.
Print Assumptions C05_binary_code_round_trip.

Example C05_example :
  map (fun n => binaryCode n 10 14) [10; 11; 12; 13; 14]
  = map Ok [[false; false; false]; [false; true]; [true; false]; [true; true]; [false; false; true]].
Proof. vm_compute. auto. Qed.

(** Ranges above 2^30 shift an [int] out of range. *)
Theorem C05_wide_range_refuted : exists n lo hi, lo <= n <= hi /\ hi < 2 ^ 32 /\ binaryCode n lo hi = UB.
Proof. exists 5, 0, (2 ^ 30). vm_compute. repeat split; congruence. Qed.
Print Assumptions C05_wide_range_refuted.

(** ** C06 *)
Theorem C06_interpolative_round_trip : forall l mx,
  l <> [] -> StronglySorted N.lt l -> Forall (fun x => x <= mx) l -> mx < 2 ^ 30 ->
  exists bits, binaryInterpolativeCode l 0 mx = Ok bits /\
    forall rest, binaryInterpolativeDecode (bits ++ rest) 0 mx (length l) = Ok (l, length bits, rest).
Proof. exact interp_all. Qed.
Print Assumptions C06_interpolative_round_trip.

Example C06_example :
  match binaryInterpolativeCode [3; 8; 9; 200] 0 255 with
  | Ok bits => binaryInterpolativeDecode (bits ++ [true]) 0 255 4
               = Ok ([3; 8; 9; 200], length bits, [true])
  | _ => False
  end.
Proof. vm_compute. auto. Qed.

(** ** C07 *)
Theorem C07_logarithms :
  (forall n, 0 < n < 2 ^ 64 -> exists k, logFloor n = Ok k /\ 2 ^ k <= n < 2 ^ (k + 1)) /\
  (forall n, 0 < n < 2 ^ 64 -> logFloorPortable n = logFloor n) /\
  (forall n, 0 < n < 2 ^ 31 -> exists k, logCeiling n = Ok k /\ n <= 2 ^ k /\
     forall j, n <= 2 ^ j -> k <= j).
Proof.
  exact (conj logFloor_def (conj portable_same logCeiling_def)).
Qed.
Print Assumptions C07_logarithms.

Theorem C07_most_significant_bit :
  (forall n, n < 2 ^ 16 -> mostSignificantBit16 n = Ok (if n =? 0 then 0 else 2 ^ N.log2 n)) /\
  (forall n, n < 2 ^ 32 -> mostSignificantBit n = if n =? 0 then 0 else 2 ^ N.log2 n).
Proof. exact (conj msb16_spec msb_spec). Qed.
Print Assumptions C07_most_significant_bit.

Example C07_example : logFloor 1000 = Ok 9 /\ logCeiling 1000 = Ok 10 /\ logCeiling 1024 = Ok 10 /\
  mostSignificantBit16 1000 = Ok 512 /\ mostSignificantBit 100000 = 65536.
Proof. vm_compute. auto. Qed.

Theorem C07_logCeiling_wide_refuted : exists n, n < 2 ^ 32 /\ logCeiling n = UB.
Proof. exists (2 ^ 31). vm_compute. auto. Qed.
Print Assumptions C07_logCeiling_wide_refuted.

(** ** C08 *)
Theorem C08_store_runs : forall (freqs : N -> N) src, src <> [] ->
  exists runs freqs',
    calculateRunFrequenciesAndStoreRuns freqs src
      = Ok (freqs', map fst runs, map snd runs, length runs) /\
    is_runs_of src runs /\
    forall c, freqs' c = freqs c + N.of_nat (count_occ N.eq_dec (map fst runs) c).
Proof. exact store_runs_all. Qed.
Print Assumptions C08_store_runs.

Theorem C08_run_counters : forall (freqs : N -> N) (lens : nat -> N) src, src <> [] ->
  exists runs freqs1 freqs2 lens',
    is_runs_of src runs /\
    calculateRunFrequencies freqs src = Ok freqs1 /\
    calculateRunsAndCharacters freqs src lens = Ok (freqs2, lens', length runs) /\
    (forall c, freqs1 c = freqs c + N.of_nat (count_occ N.eq_dec (map fst runs) c)) /\
    (forall c, freqs2 c = freqs c + N.of_nat (count_occ N.eq_dec (map fst runs) c)) /\
    (forall k, lens' k = lens k + N.of_nat (count_occ Nat.eq_dec (map snd runs) k)).
Proof. exact run_counters_all. Qed.
Print Assumptions C08_run_counters.

(** The run decomposition is unique, so "the runs" above is well defined. *)
Theorem C08_runs_unique : forall src r1 r2, is_runs_of src r1 -> is_runs_of src r2 -> r1 = r2.
Proof. exact is_runs_of_unique. Qed.
Print Assumptions C08_runs_unique.

Example C08_example :
  match calculateRunFrequenciesAndStoreRuns (fun _ => 0) [7; 7; 7; 2; 7; 7; 9] with
  | Ok (f, chars, lens, n) => (chars, lens, n) = ([7; 2; 7; 9], [3; 1; 2; 1]%nat, 4%nat) /\
                              f 7 = 2 /\ f 2 = 1 /\ f 5 = 0
  | _ => False
  end.
Proof. vm_compute. auto. Qed.

(** On an empty block the function reads before testing. *)
Theorem C08_empty_refuted : forall f, calculateRunFrequencies f [] = UB.
Proof. reflexivity. Qed.
Print Assumptions C08_empty_refuted.
