(** Properties of the wavelet tree: codes of integers, message, shape. *)
From Coq Require Import List NArith Arith Bool Lia.
From Verif Require Import Base SpecRuns ModelUtils ModelHeaders ModelProb ModelFile ModelWavelet SpecWavelet SpecChoice SpecFile.
From Verif Require Import ProofWav1 ProofWav8 ProofWav9 ProofWav10 ProofWav18 ProofWav21.
Import ListNotations.
Open Scope N_scope.

(** C19: the codes of run lengths, for every parameter w the encoder can choose, are read back whatever follows;
    the length used for choosing the parameters is the length of the code. *)
Theorem C19_fixed_codes : forall x w, 1 <= x < 2 ^ 32 -> w <= 15 ->
  exists c, fixedIntegerCode x w = Ok c /\ lengthOfFixedCode x w = Ok (N.of_nat (length c)) /\
    forall rest, readFixed (N.to_nat w) (c ++ rest) = Some (x, rest).
Proof. exact C19_fixed. Qed.
Print Assumptions C19_fixed_codes.
Example C19_fixed_example : fixedIntegerCode 21 2 = Ok [true; true; false; true; false; false; false] /\
  readFixed 2 [true; true; false; true; false; false; false; true; false] = Some (21, [true; false]).
Proof. vm_compute. split; reflexivity. Qed.

Theorem C19_gamma_codes : forall x, 1 <= x < 2 ^ 64 ->
  exists c, gammaCode x = Ok c /\ forall rest, readFixed 0 (c ++ rest) = Some (x, rest).
Proof. exact C19_gamma. Qed.
Print Assumptions C19_gamma_codes.
Example C19_gamma_example : gammaCode 11 = Ok [true; true; true; false; false; true; true] /\
  readFixed 0 [true; true; true; false; false; true; true; true] = Some (11, [true]).
Proof. vm_compute. split; reflexivity. Qed.

(** C20: whenever the tree can be built, its message is the string. *)
Theorem C20_message : forall worth src w, src <> [] -> Forall (fun c => c < 256) src -> N.of_nat (length src) < 2 ^ 31 ->
  buildTree worth src = Ok w -> message w (w_root w) = Ok src.
Proof. exact C20_all. Qed.
Print Assumptions C20_message.
(** Run lengths 5 and 3 get codes of their own, 1 is coded behind the code of 0. *)
Definition sampleRuns : list N := repeat 97 5 ++ repeat 98 5 ++ repeat 97 5 ++ repeat 98 5 ++ repeat 97 5 ++ repeat 98 5 ++ [99] ++ repeat 97 3.
Example C20_example :
  match buildTree (fun _ _ _ => false) sampleRuns with
  | Ok w => map fst (w_intCodes w) = [5; 0; 3] /\ message w (w_root w) = Ok sampleRuns
  | _ => False
  end.
Proof. vm_compute. split; reflexivity. Qed.

(** C21: the shape of the tree of every string with runs shorter than 2^30 is read back: the tree without bits, the codes of the bytes and
    run lengths, and the parameter; all other bits are left alone. *)
Theorem C21_shape : forall worth src w, src <> [] -> Forall (fun c => c < 256) src -> N.of_nat (length src) < 2 ^ 31 ->
  runs_below (2 ^ 30) src -> buildTree worth src = Ok w ->
  exists bits, treeShape w = Ok bits /\
    forall rest, exists root, readShape (bits ++ rest) = Ok (mkWavelet root (w_codes w) (w_intTree w) (w_intCodes w) (w_W w), rest) /\
      collectCodes root = Ok (w_codes w).
Proof. exact C21_all. Qed.
Print Assumptions C21_shape.
Example C21_example :
  match buildTree (fun _ _ _ => false) sampleRuns with
  | Ok w => match treeShape w with
            | Ok bits => match readShape (bits ++ [true; false; true]) with
                         | Ok (w', rest) => map fst (w_codes w') = [97; 98; 99] /\ w_codes w' = w_codes w /\ w_intCodes w' = w_intCodes w /\ rest = [true; false; true]
                         | _ => False
                         end
            | _ => False
            end
  | _ => False
  end.
Proof. vm_compute. repeat split; reflexivity. Qed.

(** C22: whenever the encoder of a block finishes, its output is appended to what was written, has the reported size, and the decoder with
    the same models gives back the block, ends in the state of the encoder and exactly at the end of the block, whatever follows.  For every
    probability model [PM] of the characters and [AM] of the gaps, and every model [GM] of the run lengths for which resetting twice is resetting once. *)
Theorem C22_block : forall (PM GM AM : predictor), (forall s s', p_reset GM s = Ok s' -> p_reset GM s' = Ok s') ->
  forall worth ms written lf stats data ms' out size, proper_block (2 ^ 30) lf stats data ->
  encodeBlock PM GM AM worth ms written lf stats data = Ok (ms', out, size) ->
  exists block, out = written ++ block /\ size = length block /\ are_bytes block /\ block <> [] /\
    forall following, decodeBlock PM GM AM ms (bytes_bits (block ++ following)) = Ok (Some (lf, data, N.of_nat (length data)), ms', bytes_bits following).
Proof. exact block_sim. Qed.
Print Assumptions C22_block.
(** The coders of the program, for every character that selects one. *)
Theorem C22_coders : forall worth c st written lf stats data st' out size, proper_block (2 ^ 30) lf stats data ->
  ec_encode (waveletCoder worth c) st written lf stats data = Ok (st', out, size) ->
  exists block, out = written ++ block /\ size = length block /\ are_bytes block /\ block <> [] /\
    forall following, ec_decode (waveletCoder worth c) st (bytes_bits (block ++ following)) = Ok (Some (lf, data, N.of_nat (length data)), st', bytes_bits following).
Proof. exact wavelet_correct. Qed.
Print Assumptions C22_coders.
Definition sampleStats : list N := map (fun c => N.of_nat (count_occ N.eq_dec sampleRuns c)) (fromTo 0 256).
Example C22_example : forallb (fun c =>
  match ec_encode (waveletCoder (fun _ _ _ => false) c) (ec_init _) [5] [3] sampleStats sampleRuns with
  | Ok (st, 5 :: block, size) => (size =? length block)%nat &&
      match ec_decode (waveletCoder (fun _ _ _ => false) c) (ec_init _) (bytes_bits (block ++ [77])) with
      | Ok (Some (lf, data, n), _, rest) => (if list_eq_dec N.eq_dec data sampleRuns then true else false) && (n =? 34) && (if list_eq_dec bool_dec rest (bytes_bits [77]) then true else false)
      | _ => false
      end
  | _ => false
  end) [117; 98; 66] = true.
Proof. vm_cast_no_check (eq_refl true). Qed.

(** C23 is false: three runs of different lengths make the encoder dereference the end of the list of run lengths, whatever the floating
    point comparisons give. *)
Theorem C23_end_of_frequencies_refuted : exists src, src <> [] /\ Forall (fun c => c < 256) src /\
  forall worth, buildTree worth src = UB.
Proof. exact C23_all. Qed.
Print Assumptions C23_end_of_frequencies_refuted.

(** It happens exactly when at least three lengths of runs occur, all equally often, and they occur fewer than 10 times or for some parameter the floating
    point comparison refuses a code to each of them; otherwise the tree is built. *)
Theorem C23_exactly : forall worth src runs, src <> [] -> Forall (fun c => c < 256) src -> N.of_nat (length src) < 2 ^ 31 -> is_runs_of src runs ->
  (cannotChoose worth runs -> buildTree worth src = UB) /\ (~ cannotChoose worth runs -> exists w, buildTree worth src = Ok w).
Proof. exact build_total. Qed.
Print Assumptions C23_exactly.
(** In particular whatever the comparisons give when two lengths are not equally frequent, or there are at most two lengths. *)
Theorem C23_always_built : forall worth src runs, src <> [] -> Forall (fun c => c < 256) src -> N.of_nat (length src) < 2 ^ 31 -> is_runs_of src runs ->
  (exists a b, In a (map snd runs) /\ In b (map snd runs) /\ runsOfLength runs a <> runsOfLength runs b) \/
  (exists a b, Forall (fun r => snd r = a \/ snd r = b) runs) ->
  exists w, buildTree worth src = Ok w.
Proof. exact always_built. Qed.
Print Assumptions C23_always_built.
Example C23_always_example : exists runs, is_runs_of sampleRuns runs /\ In 5%nat (map snd runs) /\ In 3%nat (map snd runs) /\
  runsOfLength runs 5 = 6%nat /\ runsOfLength runs 3 = 1%nat.
Proof. exists [(97, 5%nat); (98, 5%nat); (97, 5%nat); (98, 5%nat); (97, 5%nat); (98, 5%nat); (99, 1%nat); (97, 3%nat)]. repeat split; auto; try (cbn; auto 10; fail); repeat constructor; cbn; try discriminate; auto. Qed.
Theorem C23_never_built : forall worth src runs k, src <> [] -> Forall (fun c => c < 256) src -> N.of_nat (length src) < 2 ^ 31 -> is_runs_of src runs ->
  (k < 10)%nat -> Forall (fun r => runsOfLength runs (snd r) = k) runs ->
  (exists a b c, In a (map snd runs) /\ In b (map snd runs) /\ In c (map snd runs) /\ a <> b /\ a <> c /\ b <> c) ->
  buildTree worth src = UB.
Proof. exact never_built. Qed.
Print Assumptions C23_never_built.
(** Two runs of each of the lengths 1, 2 and 3. *)
Example C23_never_example : exists runs, is_runs_of [97; 98; 98; 97; 97; 97; 98; 97; 97; 98; 98; 98] runs /\ Forall (fun r => runsOfLength runs (snd r) = 2%nat) runs /\
  buildTree (fun _ _ _ => true) [97; 98; 98; 97; 97; 97; 98; 97; 97; 98; 98; 98] = UB.
Proof. exists [(97, 1%nat); (98, 2%nat); (97, 3%nat); (98, 1%nat); (97, 2%nat); (98, 3%nat)]. split; [|split]; [repeat split|..]; try (vm_compute; reflexivity); repeat constructor; cbn; try discriminate. Qed.
