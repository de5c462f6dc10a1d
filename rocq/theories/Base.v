(** Bits, bytes and list helpers.  Nothing here is specific to bwtc. *)
From Coq Require Import List NArith ZArith Lia Arith Bool.
From Coq Require Import ZifyBool ZifyNat ZifyN.
Import ListNotations.

Ltac Zify.zify_post_hook ::= Z.div_mod_to_equations.

(** Outcome of a transcribed C++ function.  [UB] stands for undefined
    behaviour or a failed assertion, [Fuel] for a loop that did not end within
    the iterations granted to it. *)
Inductive outcome (A : Type) : Type :=
| Ok (a : A)
| UB
| Fuel.
Arguments Ok {A} a.
Arguments UB {A}.
Arguments Fuel {A}.

Definition bind {A B} (m : outcome A) (f : A -> outcome B) : outcome B :=
  match m with
  | Ok a => f a
  | UB => UB
  | Fuel => Fuel
  end.

Declare Scope out_scope.
Delimit Scope out_scope with out.
Notation "'let!' x ':=' m 'in' k" := (bind m (fun x => k))
  (at level 200, x pattern, m at level 100, k at level 200, right associativity) : out_scope.
Open Scope out_scope.

(** Bits of [n], most significant first, [w] of them. *)
Fixpoint be_bits (w : nat) (n : N) : list bool :=
  match w with
  | O => []
  | S w' => N.testbit n (N.of_nat w') :: be_bits w' n
  end.

(** Bits of [n], least significant first, [w] of them. *)
Fixpoint le_bits (w : nat) (n : N) : list bool :=
  match w with
  | O => []
  | S w' => N.odd n :: le_bits w' (N.div2 n)
  end.

(** Value of a bit string, most significant bit first. *)
Definition be_val_acc (acc : N) (bs : list bool) : N :=
  fold_left (fun a (b : bool) => (2 * a + N.b2n b)%N) bs acc.
Definition be_val (bs : list bool) : N := be_val_acc 0 bs.

(** Bits of a byte, most significant first; bits of a byte string. *)
Definition byte_bits (b : N) : list bool := be_bits 8 b.
Definition bytes_bits (l : list N) : list bool := flat_map byte_bits l.

Definition is_byte (b : N) : Prop := (b < 256)%N.
Definition are_bytes (l : list N) : Prop := Forall is_byte l.

Lemma be_bits_length : forall w n, length (be_bits w n) = w.
Proof. induction w; intros; simpl; auto. Qed.

Lemma le_bits_length : forall w n, length (le_bits w n) = w.
Proof. induction w; intros; simpl; auto. Qed.

Lemma byte_bits_length : forall b, length (byte_bits b) = 8.
Proof. intros; apply be_bits_length. Qed.

Lemma bytes_bits_length : forall l, length (bytes_bits l) = 8 * length l.
Proof.
  induction l as [|a l IH]; auto.
  change (bytes_bits (a :: l)) with (byte_bits a ++ bytes_bits l).
  rewrite app_length, byte_bits_length, IH. cbn [length]. lia.
Qed.

Lemma bytes_bits_app : forall a b, bytes_bits (a ++ b) = bytes_bits a ++ bytes_bits b.
Proof. intros. unfold bytes_bits. apply flat_map_app. Qed.

Lemma bytes_bits_cons : forall a b, bytes_bits (a :: b) = byte_bits a ++ bytes_bits b.
Proof. reflexivity. Qed.

Lemma be_val_acc_app : forall a b acc,
  be_val_acc acc (a ++ b) = be_val_acc (be_val_acc acc a) b.
Proof. intros. unfold be_val_acc. apply fold_left_app. Qed.

Lemma be_val_acc_linear : forall bs acc,
  be_val_acc acc bs = (acc * 2 ^ N.of_nat (length bs) + be_val bs)%N.
Proof.
  induction bs as [|b bs IH]; intros acc.
  - unfold be_val, be_val_acc; simpl. lia.
  - unfold be_val. simpl length.
    change (be_val_acc acc (b :: bs)) with (be_val_acc (2 * acc + N.b2n b) bs).
    change (be_val_acc 0 (b :: bs)) with (be_val_acc (2 * 0 + N.b2n b) bs).
    rewrite (IH (2 * acc + N.b2n b)%N), (IH (2 * 0 + N.b2n b)%N).
    rewrite Nat2N.inj_succ, N.pow_succ_r'. lia.
Qed.

Lemma be_val_app : forall a b,
  be_val (a ++ b) = (be_val a * 2 ^ N.of_nat (length b) + be_val b)%N.
Proof.
  intros. unfold be_val at 1. rewrite be_val_acc_app. apply be_val_acc_linear.
Qed.

Lemma be_val_bound : forall bs, (be_val bs < 2 ^ N.of_nat (length bs))%N.
Proof.
  induction bs as [|b bs IH].
  - unfold be_val; simpl; lia.
  - change (b :: bs) with ([b] ++ bs). rewrite be_val_app.
    assert (be_val [b] <= 1)%N by (destruct b; unfold be_val; simpl; lia).
    rewrite app_length. simpl length. rewrite Nat2N.inj_add.
    change (N.of_nat 1) with 1%N. rewrite N.pow_add_r. change (2^1)%N with 2%N. nia.
Qed.

Lemma be_bits_val_acc : forall w n acc,
  be_val_acc acc (be_bits w n) = (acc * 2 ^ N.of_nat w + n mod 2 ^ N.of_nat w)%N.
Proof.
  induction w; intros n acc.
  - simpl. unfold be_val_acc. simpl. rewrite N.mod_1_r. lia.
  - change (be_val_acc acc (be_bits (S w) n))
      with (be_val_acc (2 * acc + N.b2n (N.testbit n (N.of_nat w))) (be_bits w n)).
    rewrite IHw, Nat2N.inj_succ, N.pow_succ_r'.
    replace (2 * 2 ^ N.of_nat w)%N with (2 ^ N.of_nat w * 2)%N by lia.
    rewrite (N.mod_mul_r n (2 ^ N.of_nat w) 2)
      by (try apply N.pow_nonzero; lia).
    rewrite <- N.bit0_mod.
    rewrite N.div_pow2_bits, N.add_0_l. lia.
Qed.

Lemma be_bits_val : forall w n, (n < 2 ^ N.of_nat w)%N -> be_val (be_bits w n) = n.
Proof.
  intros. unfold be_val. rewrite be_bits_val_acc. rewrite N.mod_small by assumption. lia.
Qed.

Lemma be_val_bits : forall bs, be_bits (length bs) (be_val bs) = bs.
Proof.
  induction bs as [|b bs IH] using rev_ind; auto.
  rewrite app_length, Nat.add_comm. cbn [length Nat.add be_bits].
  rewrite be_val_app.
  change (2 ^ N.of_nat (length [b]))%N with 2%N.
  assert (Hb : be_val [b] = N.b2n b) by (destruct b; reflexivity).
  rewrite Hb.
  assert (G : forall w n, N.testbit (n * 2 + N.b2n b) (N.of_nat w) :: be_bits w (n * 2 + N.b2n b)
     = be_bits w n ++ [b]).
  { induction w; intros.
    - simpl. f_equal. rewrite N.mul_comm. rewrite N.testbit_0_r. reflexivity.
    - cbn [be_bits app]. f_equal.
      + rewrite Nat2N.inj_succ, N.mul_comm, N.testbit_succ_r. reflexivity.
      + apply IHw. }
  rewrite G, IH. reflexivity.
Qed.

Lemma be_bits_inj : forall w m n,
  (m < 2 ^ N.of_nat w)%N -> (n < 2 ^ N.of_nat w)%N -> be_bits w m = be_bits w n -> m = n.
Proof.
  intros w m n Hm Hn E. rewrite <- (be_bits_val w m Hm), <- (be_bits_val w n Hn), E. reflexivity.
Qed.

(** Equality of outcomes built from pairs, component by component. *)
Ltac oklia := repeat match goal with
  | |- Ok _ = Ok _ => apply f_equal
  | |- (_, _) = (_, _) => apply f_equal2
  end; try reflexivity; try lia.
