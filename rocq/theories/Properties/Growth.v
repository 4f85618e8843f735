(** Growth.v — how often the tables grow and how much is copied: C73. [growths c cap tr s l] (Spec/Growth.v): [l] has the capacities
    given up in the history [tr]. *)
From Verif.Model Require Import Heap.
From Verif.Spec Require Import Env Runs Components Discipline Growth.
From Verif.Proofs Require Import ExecP GrowthP.
Local Open Scope N_scope.

(** C73: each growth doubles the capacity, so all growths together copy fewer entries than the store has in the end; both
    builds, every history. *)
Theorem C73_doubling : ∀ c cap tr s, run c cap tr s → ∃ l, growths c cap tr s l ∧
  entities_capacity s = match l with [] => cap | _ => N.max cap 1 * 2 ^ N.of_nat (length l) end ∧
  copied l + N.max cap 1 ≤ N.max (entities_capacity s) 1.
Proof. exact doubling. Qed.
Print Assumptions C73_doubling.
(** Fewer entries are copied than twice the peak population, and the store grows at most 1 + log2 (peak / cap) times. *)
Theorem C73_amortised : ∀ c cap tr s l,
  c_mode c = Debug → growths c cap tr s l → cap < 2 ^ 32 → peak tr < 2 ^ 31 → l ≠ [] →
  cap * 2 ^ N.of_nat (length l) ≤ 2 * peak tr ∧ copied l < 2 * peak tr.
Proof. exact growths_bounded. Qed.
Print Assumptions C73_amortised.
(** The same for disciplined histories (C53) of both builds. *)
Theorem C73_amortised_both : ∀ c cap tr s l,
  cfg_ok c → drun (healthy c) c cap tr s → growths c cap tr s l → cap < 2 ^ 32 → peak tr < 2 ^ 31 → l ≠ [] →
  cap * 2 ^ N.of_nat (length l) ≤ 2 * peak tr ∧ copied l < 2 * peak tr.
Proof. exact growths_bounded_both. Qed.
Print Assumptions C73_amortised_both.
(** Only creations grow, ... *)
Theorem C73_only_creations : ∀ c o s s' r, step c o s = ROk s' r → entities_capacity s' ≠ entities_capacity s → is_Some r.
Proof. exact only_creations. Qed.
Print Assumptions C73_only_creations.
(** ... a creation that does not grow makes no call to the allocator, and one that does makes at most two for each table. *)
Theorem C73_allocator_calls : ∀ c s s' r k h, step c OCreate s = ROk s' r →
  ∃ h' k', m_step c OCreate s k h = ROk (h' ++ h) k' ∧ (length h' ≤ 2 * tables k)%nat ∧ (entities_capacity s' = entities_capacity s → h' = []).
Proof. exact create_calls. Qed.
Print Assumptions C73_allocator_calls.
(** Capacities 1, 2, 4, 8; 7 entries are copied in each table; the population reaches 5. The second, third and fifth creations make 6 calls
    each (two for each table that is not a bit vector; the bit vectors have room), the others none. *)
Example C73_example :
  let c := ex_cfg Debug in let ops := repeat (λ _, OCreate) 5 in let tr := end_trace c 1 ops in
  let calls n := match m_life c 1 (take n tr) with ROk h _ => length h | _ => 0%nat end in
  end_ok c 1 ops = true ∧ length tr = 5%nat ∧ (λ n, entities_capacity (end_store c 1 (take n ops))) <$> seq 1 5 = [1; 2; 4; 4; 8] ∧
  (∃ s, growths c 1 tr s [1; 2; 4]) ∧ copied [1; 2; 4] = 7 ∧ peak tr = 5 ∧
  (λ n, (calls (S n) - calls n)%nat) <$> seq 0 5 = [0; 6; 6; 0; 6]%nat.
Proof. intros c ops tr calls. split_and!; try (vm_compute; reflexivity). apply gexec_list. vm_compute. reflexivity. Qed.
