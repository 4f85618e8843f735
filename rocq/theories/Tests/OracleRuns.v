(** Random histories on which every claim that [Oracle] can compute holds.  These are tests, not proofs: they run the model on
    pseudo-random calls and compare its answers with what the specifications say.  The same entry points are run on the
    seeded wrong models of /verif/seeded/LOG.jsonl, where the field [spec_violated] has the numbers of the claims that came out
    false. *)
From Verif.Tests Require Import Oracle.
Local Open Scope N_scope.

Example archetypes_ok : archetypes bs_old = [] ∧ archetypes bs_new = []. Proof. split; vm_compute; reflexivity. Qed.
Example resources_ok : resources 0 7 = [] ∧ resources 3 8 = []. Proof. split; vm_compute; reflexivity. Qed.
Example small_debug_ok : small Debug bs_old 1 60 1 177 = []. Proof. vm_compute; reflexivity. Qed.
Example small_release_ok : small Release bs_new 3 60 1 99 = []. Proof. vm_compute; reflexivity. Qed.
Example large_release_ok : large Release bs_old 1 40 20 77 = []. Proof. vm_compute; reflexivity. Qed.
(** More than 32 ids, several tags, many sets of types. *)
Example crowd_debug_ok : crowd Debug bs_old 1 20 60 20 5 = []. Proof. vm_compute; reflexivity. Qed.
