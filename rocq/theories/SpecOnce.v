(** * Processors and builds, for the choice of code at run time (C55). *)
From Coq Require Import ZArith.
Open Scope Z_scope.

(** What [cpuid] answers: the highest function in [eax] for function 0, the registers [ecx] and [edx] for function 1;
    everything else is arbitrary ([rest]: function, then eax, ebx, ecx, edx). *)
Record x86_cpu := Cpu { highest : Z; features_c : Z; features_d : Z; rest : Z -> Z * Z * Z * Z }.
(** Intel's manual, CPUID: SSE2 is bit 26 of edx, SSE4.1 bit 19 of ecx, of function 1. *)
Definition cpu_sse2 (c : x86_cpu) : Prop := 1 <= highest c /\ Z.testbit (features_d c) 26 = true.
Definition cpu_sse41 (c : x86_cpu) : Prop := 1 <= highest c /\ Z.testbit (features_c c) 19 = true.

(** How the library was built: pointers of 8 bytes or of 4; which vector versions were compiled; the instructions the
    compiler may use everywhere (BOOST_HW_SIMD_X86). *)
Inductive simd := NoSse2 | Sse2 | Sse41.
Record build := Build { wide : bool; with_sse2 : bool; with_sse41 : bool; baseline : simd }.
(** The program runs on the processor at all. *)
Definition fit (b : build) (c : x86_cpu) : Prop :=
  match baseline b with NoSse2 => True | Sse2 => cpu_sse2 c | Sse41 => cpu_sse2 c /\ cpu_sse41 c end.
