(** C115: AES-128 in Verilog.
    Statements only; the proofs are in RtlAes.v and RtlAesRun.v. *)
From Coq Require Import ZArith NArith List Bool.
From Verif Require Import RtlBase RtlAes RtlAesRun.
Import ListNotations.
Open Scope Z_scope.

(** * C115: AES-128 *)
Theorem C115_one_cycle : forall g e o, aes_1cc g e o -> bytes 16 o = AesSpec.AES 4 (bytes 16 g) (bytes 16 e).
Proof. exact aes_1cc_ok. Qed.
Print Assumptions C115_one_cycle.
Theorem C115_eleven_cycles : forall g e n i o, aes_11cc g e n i o -> (11 <= n)%nat -> bytes 16 (o 10%nat) = AesSpec.AES 4 (bytes 16 g) (bytes 16 e).
Proof. exact aes_11cc_ok. Qed.
Print Assumptions C115_eleven_cycles.
Theorem C115_sbox : forall s x, sbox s x -> byte s = AesSpec.SBox (byte x).
Proof. exact sbox_ok. Qed.
Print Assumptions C115_sbox.
Theorem C115_key_schedule : forall key ek, KeyExpansion key ek -> forall i, (i < 44)%nat -> bytes 4 (part (32 * i) ek) = W (bytes 16 key) i.
Proof. exact KeyExpansion_ok. Qed.
Print Assumptions C115_key_schedule.
(** Every run exists. *)
Theorem C115_one_cycle_runs : forall g e, exists o, aes_1cc g e o.
Proof. exact aes_1cc_total. Qed.
Print Assumptions C115_one_cycle_runs.
Theorem C115_eleven_cycles_runs : forall g e n i, exists o, aes_11cc g e n i o.
Proof. exact aes_11cc_total. Qed.
Print Assumptions C115_eleven_cycles_runs.
Example C115_case : (exists o, aes_1cc (from_bytes fips_key) (from_bytes fips_in) o /\ bytes 16 o = fips_out) /\
  (exists o, aes_11cc (from_bytes fips_key) (from_bytes fips_in) 11 (fun _ => tt) o /\ bytes 16 (o 10%nat) = fips_out).
Proof. exact aes_case. Qed.
