(** Grammars as a list of rules, and the grammars that can be written. *)
From Coq Require Import List NArith Arith Bool.
From Verif Require Import Base ModelUtils ModelGrammar.
Import ListNotations.
Open Scope N_scope.

(** A symbol of the precompressed text: one byte, or a pair of special symbols. *)
Inductive sym := One (c : N) | Two (a b : N).
Definition symBytes (k : sym) : list N := match k with One c => [c] | Two a b => [a; b] end.
Definition isTwo (k : sym) : bool := match k with One _ => false | Two _ _ => true end.
(** The value of PrRule::m_variable. *)
Definition symVariable (k : sym) : N := match k with One c => c | Two a b => a * 256 + b end.

(** Rules (left side, bytes of the right side) stored one after the other from [pos] on. *)
Fixpoint layout (pos : nat) (rules : list (sym * list N)) : list prRule :=
  match rules with
  | [] => []
  | (k, side) :: r =>
    mkRule (symVariable k) pos (pos + length side) (isTwo k) :: layout (pos + length side) r
  end.

(** The number of the pair formed by the special symbols number i and j: pairs of the first k special
    symbols come before all others. *)
Definition number (i j : nat) : nat :=
  if (i =? j)%nat then (i * i)%nat
  else if (j <? i)%nat then (i * i + i + j + 1)%nat else (j * j + i + 1)%nat.

(** Entry number n of m_specialPairReplacements, [large n] telling whether pair number n is the
    left side of a rule. *)
Definition entryOk (specials : list N) (large : nat -> Prop) (n : nat) (entry : bool * N) : Prop :=
  (forall k, n = (k * k)%nat -> fst entry = false /\ nth_error specials k = Some (snd entry)) /\
  ((forall k, n <> (k * k)%nat) -> fst entry = true <-> large n) /\
  snd entry < 256.

Definition square (n : nat) : bool := (Nat.sqrt n * Nat.sqrt n =? n)%nat.
(** Number of symbols replaced by special pairs, from pair number n on. *)
Fixpoint freedCount (n : nat) (pairs : list (bool * N)) : nat :=
  match pairs with
  | [] => 0
  | (v, _) :: r => ((if square n || v then 0 else 1) + freedCount (S n) r)%nat
  end.

(** Grammar with special symbols [specials] and rules [rules]. *)
Definition writable (g : grammar) (rules : list (sym * list N)) : Prop :=
  g_rules g = layout 0 rules /\ g_rhs g = concat (map snd rules) /\
  N.of_nat (length rules) < 2 ^ 32 /\
  (forall k side, In (k, side) rules -> (2 <= length side <= 4)%nat /\ are_bytes side) /\
  (forall c side, In (One c, side) rules -> c < 256) /\
  (forall a b side, In (Two a b, side) rules -> exists i j,
     nth_error (g_specials g) i = Some a /\ nth_error (g_specials g) j = Some b /\
     (number i j < length (g_pairs g))%nat) /\
  NoDup (g_specials g) /\ are_bytes (g_specials g) /\ (length (g_specials g) <= 255)%nat /\
  length (g_special g) = 256%nat /\
  (forall c, c < 256 -> nth_error (g_special g) (N.to_nat c) = Some true <-> In c (g_specials g)) /\
  (length (g_pairs g) <= length (g_specials g) * length (g_specials g))%nat /\
  (forall n entry, nth_error (g_pairs g) n = Some entry ->
     entryOk (g_specials g)
       (fun n => exists i j a b side, n = number i j /\ nth_error (g_specials g) i = Some a /\
                   nth_error (g_specials g) j = Some b /\ In (Two a b, side) rules) n entry) /\
  (g_pairs g = [] \/ exists n, length (g_pairs g) = S n /\ forall k, n <> (k * k)%nat) /\
  (freedCount 0 (g_pairs g) <= 255)%nat /\
  (rules = [] -> g_specials g = [] /\ g_pairs g = []).

(** What the postprocessor looks at. *)
Definition sameGrammar (g g' : grammar) : Prop :=
  g_special g' = g_special g /\ g_specials g' = g_specials g /\ g_rules g' = g_rules g /\
  g_rhs g' = g_rhs g /\ freedSymbols g' = freedSymbols g.
