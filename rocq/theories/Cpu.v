(* Accounting of processor time: enclave/context/context.{h,cc}, and the
   counters of enclave/metrics/metrics.cc that it adds to.
   Simplified: the objects of a context that are linked by parent_ are a list,
   the innermost (cpu_current_) first.  C++ scoping destroys them in that order
   only.  A counter is a number; nullptr (IGNORE_CPU) is None. *)
From Verif Require Import Base.
Open Scope N_scope.

(* context.h:38-50 CPUMeasurement: counter_ and ticks_. *)
Record meas := Meas { m_counter : option N; m_ticks : N }.
(* context.h:52-79 Context: cpu_current_ and its parents. *)
Definition ctx := list meas.

(* uint64_t differences. *)
Definition sub64 (a b : N) : N := (a + 2 ^ 64 - b) mod 2 ^ 64.
(* util/cpu.h asm_rdtsc: the 64 bits of the clock. *)
Definition rdtsc (now : N) : N := now mod 2 ^ 64.

(* metrics.cc:47-49 Counter::IncrementBy: an atomic uint64_t; nullptr is
   skipped by the callers. *)
Definition counters := N -> N.
Definition incr (c : option N) (v : N) (cs : counters) : counters :=
  match c with
  | None => cs
  | Some i => fun j => if j =? i then (cs j + v) mod 2 ^ 64 else cs j
  end.

(* context.cc:15-20, 33-45: the constructor with SetContext; also of cpu_top_,
   context.cc:11-13, where there is no parent. *)
Definition enter (c : option N) (now : N) (k : ctx) (cs : counters) : ctx * counters :=
  let t := rdtsc now in
  (Meas c t :: k,
   match k with
   | [] => cs
   | p :: _ => incr (m_counter p) (sub64 t (m_ticks p)) cs
   end).

(* context.cc:22-31: the destructor. *)
Definition leave (now : N) (k : ctx) (cs : counters) : ctx * counters :=
  let t := rdtsc now in
  match k with
  | [] => (k, cs)
  | m :: k' =>
      (match k' with
       | [] => []
       | p :: k'' => Meas (m_counter p) t :: k''
       end,
       incr (m_counter m) (sub64 t (m_ticks m)) cs)
  end.

(* What a thread does with its context, and when (MEASURE_CPU, IGNORE_CPU and
   the end of their scopes; the context's own beginning and end). *)
Inductive event := Enter (c : option N) (now : N) | Leave (now : N).

(* All contexts of the enclave's threads and the counters they share. *)
Record state := State { s_ctx : N -> ctx; s_counters : counters }.
Definition start : state := State (fun _ => []) (fun _ => 0).
Definition step (s : state) (x : N * event) : state :=
  let k := s_ctx s (fst x) in
  let r := match snd x with
           | Enter c now => enter c now k (s_counters s)
           | Leave now => leave now k (s_counters s)
           end in
  State (fun i => if i =? fst x then fst r else s_ctx s i) (snd r).
Definition run (tr : list (N * event)) : state := fold_left step tr start.
