(** The symbol frequency table (C35). *)
From Coq Require Import List NArith Arith Bool.
From Verif Require Import Base ModelUtils ModelFreq SpecFreq ProofFreq2.
Import ListNotations.
Open Scope N_scope.

(** C35: after any sequence of permitted operations the table lists the symbols not removed
    from the lowest frequency to the highest and finds their frequencies; with the word
    behind the array as laid out by gcc on x86-64. *)
Theorem C35_table : forall sortF frequencies ops m removed, sorts_by_frequency sortF ->
  length frequencies = 256%nat -> Forall (fun f => f < 2 ^ 40) frequencies ->
  permittedAll (fun c => nth (N.to_nat c) frequencies 0) [] ops m removed ->
  exists t t', ftInit sortF frequencies = Ok t /\ ftRun layoutOver t ops = Ok t' /\ shows t' m removed.
Proof. exact C35_all. Qed.
Print Assumptions C35_table.

(** "Reads stay inside the table" is false: removing any symbol from any table nothing has been
    removed from reads m_frequencies[256]. *)
Theorem C35_remove_reads_outside : forall sortF frequencies key, sorts_by_frequency sortF ->
  length frequencies = 256%nat -> Forall (fun f => f < 2 ^ 40) frequencies -> key < 256 ->
  exists t, ftInit sortF frequencies = Ok t /\ ftRemove strictOver t key = UB.
Proof. exact C35_over_all. Qed.
Print Assumptions C35_remove_reads_outside.

Definition someFrequencies : list N := map (fun i => N.of_nat (i * 7 mod 50)) (seq 0 256).
Example C35_case :
  sorts_by_frequency sortByFrequency /\
  match ftInit sortByFrequency someFrequencies with
  | Ok t => match ftRun layoutOver t [Increase 3 100; Decrease 10 2; Remove 3; Remove 200; Decrease 99 1] with
            | Ok t' => ft_last t' = 254%nat /\ ftGetKey t' 253 = Ok 207 /\ ftGetFrequencyWithKey t' 10 = Ok 18
            | _ => False
            end /\
            ftRemove strictOver t 3 = UB
  | _ => False
  end.
Proof. split; [exact sortByFrequency_ok|vm_compute; auto]. Qed.

(** Without the restriction that nothing is increased once something has been removed, the table is
    wrong: here symbol 0 is removed and symbol 1 increased afterwards, and the removed symbol
    is listed again instead of symbol 1.  (The compressor itself never does this.) *)
Theorem C35_increase_after_remove_refuted : exists sortF frequencies, sorts_by_frequency sortF /\
  match ftInit sortF frequencies with
  | Ok t => match ftRun layoutOver t [Remove 0; Increase 1 5] with
            | Ok t' => ft_last t' = 255%nat /\ ftGetKey t' 254 = Ok 0 /\
                       forallb (fun i => match ftGetKey t' i with Ok c => negb (c =? 1) | _ => false end)
                               (seq 0 255) = true
            | _ => False
            end
  | _ => False
  end.
Proof. exists sortByFrequency, (repeat 1 256). split; [exact sortByFrequency_ok|vm_compute; auto]. Qed.
Print Assumptions C35_increase_after_remove_refuted.

Example C35_case_permitted : exists m,
  permittedAll (fun c => nth (N.to_nat c) someFrequencies 0) []
    [Increase 3 100; Decrease 10 2; Remove 3; Remove 200; Decrease 99 1] m [200; 3].
Proof.
  eexists. repeat (eapply permitted_cons; [vm_compute; intuition discriminate|]). apply permitted_nil.
Qed.
