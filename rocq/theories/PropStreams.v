(** Properties C25-C27: output stream, input stream, circular buffer.  [K] is the size
    of the streams' buffers (64 KiB in the code). *)
From Coq Require Import List NArith Arith Bool Lia.
From Verif Require Import Base ModelUtils ModelStreams SpecStreams ProofStreams1 ProofStreams2.
Import ListNotations.
Open Scope N_scope.

(** ** C25 *)
Theorem C25_output_stream : forall K, (0 < K)%nat -> forall ops, validOutAll [] ops ->
  exists st, runOut K outInit ops = Ok (st, specPositions [] ops) /\
             outClose st = specOutAll [] ops.
Proof. exact C25_all. Qed.
Print Assumptions C25_output_stream.

Definition C25_ops : list outOp :=
  [OByte 1; OPos; OBlock [2; 3; 4; 5; 6; 7; 8; 9; 10]; OPatch (2 ^ 40 + 7) 2; OPos; OByte 11; OFlush; OByte 12; OPos].
Example C25_example :
  validOutAll [] C25_ops /\
  match runOut 4 outInit C25_ops with
  | Ok (st, ps) => ps = [1%nat; 10%nat; 12%nat] /\ outClose st = [1; 2; 1; 0; 0; 0; 0; 7; 9; 10; 11; 12]
  | _ => False
  end.
Proof. split; [|vm_compute; auto]. cbn. repeat split; try lia. Qed.

(** ** C26 *)
Theorem C26_input_stream : forall K, (0 < K)%nat -> forall file ops, are_bytes file -> validIn 0 ops ->
  exists st, runIn K (inInit file) ops = Ok (st, specInAll (bytes_bits file) ops).
Proof. exact C26_all. Qed.
Print Assumptions C26_input_stream.

Definition C26_ops : list inOp := [IByte; IBit; IBit; IByte; IBit; IFlush; I48; IBlock 3; IBlock 3; IBit].
Definition C26_file : list N := [200; 129; 3; 0; 0; 0; 0; 1; 44; 9; 8; 7; 6].
Example C26_example :
  are_bytes C26_file /\ validIn 0 C26_ops /\
  match runIn 4 (inInit C26_file) C26_ops with
  | Ok (_, l) => l = [RNum 200; RBit true; RBit false; RNum 4; RBit false; RUnit; RNum 300;
                      RBlock [9; 8; 7]; RBlock [6]; RBit true]
  | _ => False
  end.
Proof. split; [|split]; [repeat constructor|cbn; auto 20|vm_compute; auto]. Qed.

(** At a byte boundary the end of the data is reported exactly at the end of the file,
    unless precisely one byte is left. *)
Theorem C26_end_of_data : forall K, (0 < K)%nat -> forall file ops, are_bytes file -> validIn 0 ops ->
  unreadAfter 0 ops = 0 -> length (leftAfter (bytes_bits file) ops) <> 8%nat ->
  exists st res, runIn K (inInit file) ops = Ok (st, res) /\
    (snd (inDataEnding K st) = true <-> leftAfter (bytes_bits file) ops = []).
Proof. exact C26_ending_all. Qed.
Print Assumptions C26_end_of_data.

Example C26_end_example :
  validIn 0 [IByte; IBlock 12] /\ unreadAfter 0 [IByte; IBlock 12] = 0 /\
  leftAfter (bytes_bits C26_file) [IByte; IBlock 12] = [] /\
  length (leftAfter (bytes_bits C26_file) [IByte; IBlock 10]) = 16%nat.
Proof. vm_compute. auto. Qed.

(** With one byte left in the buffer and the end of the file already seen by fread the
    end is reported one byte early. *)
Theorem C26_one_byte_left_refuted : exists file ops, are_bytes file /\ validIn 0 ops /\
  unreadAfter 0 ops = 0 /\ leftAfter (bytes_bits file) ops <> [] /\
  match runIn (N.to_nat 65536) (inInit file) ops with
  | Ok (st, _) => snd (inDataEnding (N.to_nat 65536) st) = true
  | _ => False
  end.
Proof.
  exists [5; 6], [IByte]. split; [repeat constructor|]. split; [cbn; auto|].
  split; [reflexivity|]. split; [discriminate|]. vm_compute. auto.
Qed.
Print Assumptions C26_one_byte_left_refuted.

(** ** C27 *)
Theorem C27_circular_buffer : forall (T : Type) cap (ops : list (qOp T)), (0 < cap)%nat ->
  validQ cap [] ops -> runQ (circInit cap) ops = Ok (specQAll cap [] ops).
Proof.
  exact (fun T cap ops H V => runQ_spec T cap H ops [] (circInit cap) (circInit_inv T cap H) V).
Qed.
Print Assumptions C27_circular_buffer.

Example C27_example :
  let ops := [QPush 1; QPush 2; QPush 3; QFull; QConsume 2; QPush 4; QFull; QPush 5; QFull; QConsume 9] in
  validQ 3 [] ops /\
  runQ (circInit 3) ops =
    Ok [QNone; QNone; QNone; QBool true; QGot [1; 2]; QNone; QBool false; QNone; QBool true; QGot [3; 4; 5]].
Proof. split; [cbn; repeat split; lia|vm_compute; auto]. Qed.
