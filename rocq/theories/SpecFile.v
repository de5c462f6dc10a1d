(** What the compression of a file demands of the entropy coder and of the blocks. *)
From Coq Require Import List NArith Arith Bool.
From Verif Require Import Base ModelHeaders SpecHeaders SpecBWT ModelGrammar ModelFile ModelPairs SpecPairs.
Import ListNotations.
Open Scope N_scope.

(** What a transformed block and the data belonging to it look like, see C38. *)
Definition proper_block (limit : N) (lf stats data : list N) : Prop :=
  (1 <= length lf <= 256)%nat /\ Forall (fun v => v < 2 ^ 31) lf /\ counts_of data stats /\
  sumN stats = N.of_nat (length data) /\ data <> [] /\ are_bytes data /\ N.of_nat (length data) < limit.

(** Whatever the encoder writes for a proper block, it appends it and reports its size, and the decoder in the same
    state gives back the block, reads exactly what was written and reaches the same state. *)
Definition coder_correct (coder : entropyCoder) (limit : N) : Prop :=
  forall st written lf stats data st' out n, proper_block limit lf stats data ->
  ec_encode coder st written lf stats data = Ok (st', out, n) ->
  exists block, out = written ++ block /\ n = length block /\ are_bytes block /\ block <> [] /\
    forall following, ec_decode coder st (bytes_bits (block ++ following)) =
      Ok (Some (lf, data, N.of_nat (length data)), st', bytes_bits following).

(** The encoder does not fail. *)
Definition coder_total (coder : entropyCoder) (limit : N) : Prop :=
  forall st written lf stats data, proper_block limit lf stats data ->
  exists r, ec_encode coder st written lf stats data = Ok r.

(** The suffix sorter sorts. *)
Definition sorts_suffixes (sorter : list N -> list nat) : Prop := forall t, suffix_array t (sorter t).

(** The precompressor does not enlarge the block, and its rounds in place have room in the buffer (C33). *)
Definition blockFits (sortF : list (N * N) -> list (N * N)) (over : list N -> outcome N) (capacity : nat -> nat)
    (lowRatio : nat -> nat -> bool) (n : nat) (block : list N) : bool :=
  roundsFit sortF over capacity lowRatio n (length block) None emptyGrammar block &&
  match precompress sortF over capacity lowRatio n block with
  | Ok (_, data) => (length data <=? length block)%nat
  | _ => true
  end.
