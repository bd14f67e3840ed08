(* How an enclave on Azure SNP starts: enclave/env/azuresnp/azuresnp.cc:93-188
   (Init).  The machine around it is a state [W] that commands change.
   Simplified: the temporary directory is part of that state, the files are
   named by numbers; what the quote and the verification compute is arbitrary
   (they are modelled in Tpm2Snp.v). *)
From Verif Require Import Base.
Open Scope N_scope.

Section Init.
Context {W : Type}.
(* The lapse of seconds. *)
Variable pause : N -> W -> W.
Definition command := W -> W * N.   (* system(): the status *)

(* azuresnp.cc:130-138: attempts from the i-th on, n of them. *)
Fixpoint attempts (c : command) (n : nat) (i : N) (w : W) : W * bool :=
  match n with
  | O => (w, false)
  | S k => let '(w1, ret) := c w in
           if ret =? 0 then (w1, true) else attempts c k (i + 1) (pause (2 ^ i) w1)
  end.

(* LOG(FATAL) at a log level (log.h:42; LogLevel.v): it stops the process only if
   it is logged. *)
Definition fatal {A} (logged : bool) (go_on : outcome A) : outcome A := if logged then Crash else go_on.

(* azuresnp.cc:105-142 *)
Fixpoint run_all (logged : bool) (cs : list command) (w : W) : outcome W :=
  match cs with
  | [] => Ret w
  | c :: r => let '(w1, ok) := attempts c 6 0 w in
              if ok then run_all logged r w1 else fatal logged (run_all logged r w1)
  end.

(* A value, or an empty one if there is an error that did not stop us. *)
Definition must {A} (logged : bool) (x : option bytes) (k : bytes -> outcome A) : outcome A :=
  match x with Some b => k b | None => fatal logged (k []) end.

Record evidence := Evidence { snp_report : bytes; runtime_data : bytes; akcert : bytes }.
Record endorsements := Endorsements { intermediate : bytes; vcek : bytes; ask : bytes }.
Record machine := Machine {
  tmpdir : W -> option W;                            (* fs.cc TmpDir::Init *)
  commands : list command;                           (* azuresnp.cc:105-124 *)
  file : W -> N -> option bytes;                     (* fs.cc FileContents *)
  snp_of : bytes -> option bytes; runtime_of : bytes -> option bytes;
  quote : W -> evidence -> option (bytes * bytes);   (* CurrentEvidence: what is quoted, and the PCRs as a string *)
  pcrs_of : bytes -> option bytes;                   (* PCRsFromString *)
  verify : bytes -> endorsements -> bytes -> bool    (* Attest, of a quote with the endorsements, against the local PCRs *)
}.

(* azuresnp.cc:93-188, not simulated: what the enclave will show of itself, and
   the PCRs it will hold others to. *)
Definition init (m : machine) (logged : bool) (w0 : W) : outcome (W * evidence * endorsements * bytes) :=
  match (match tmpdir m w0 with Some w => Ret w | None => fatal logged (Ret w0) end) with
  | Crash => Crash
  | Ret w1 =>
    match run_all logged (commands m) w1 with
    | Crash => Crash
    | Ret w =>
      must logged (file m w 0) (fun report =>
      must logged (file m w 1) (fun akcert =>
      must logged (file m w 2) (fun inter =>
      must logged (file m w 3) (fun vcek =>
      must logged (file m w 4) (fun ask =>
      must logged (snp_of m report) (fun snp =>
      must logged (runtime_of m report) (fun rt =>
        let ev := {| snp_report := snp; runtime_data := rt; akcert := akcert |} in
        let en := {| intermediate := inter; vcek := vcek; ask := ask |} in
        must logged (match quote m w ev with Some (_, p) => pcrs_of m p | None => None end) (fun pcrs =>
        match quote m w ev with
        | None => fatal logged (Ret (w, ev, en, pcrs))
        | Some (q, _) => if verify m q en pcrs then Ret (w, ev, en, pcrs) else fatal logged (Ret (w, ev, en, pcrs))
        end))))))))
    end
  end.
End Init.

(* --- The commands for the VCEK, azuresnp.cc:113-119 --- *)
(* The machine for these: the time, and the file "vcek". *)
Record net := Net { now : N; vcek_file : bytes }.
Definition net_pause (d : N) (w : net) : net := {| now := now w + d; vcek_file := vcek_file w |}.
(* curl without --fail: it writes what the server sends, whatever its status, and
   its own status is 0 if there was an answer at all (None: there was not). *)
Definition curl (server : N -> option bytes) : command :=
  fun w => match server (now w) with
           | Some body => ({| now := now w; vcek_file := body |}, 0)
           | None => (w, 7)
           end.
(* jq and openssl together: they work if what was fetched is a certificate. *)
Definition convert (is_cert : bytes -> bool) : command :=
  fun w => (w, if is_cert (vcek_file w) then 0 else 1).
