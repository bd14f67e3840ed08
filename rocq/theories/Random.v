(* Random bytes: the environments' RandomBytes and what their callers do with
   its result.
   enclave/env/socket/socket.cc, enclave/env/nsm/nsm.cc,
   enclave/env/sgx/sgx.cc, enclave/env/env.cc and the callers cited below.
   Simplified: the source (kernel, security module, processor) is the list of
   the answers it will give, one per call; a list that runs out is a call that
   has not returned yet. *)
From Verif Require Import Base Util.
Open Scope nat_scope.

(* One answer of a source that hands out bytes: getrandom(2), nsm_get_random
   (a library of the Nitro enclaves) or oe_random (Open Enclave). *)
Inductive answer := Failed | Gave (bs : bytes).

(* Which RandomBytes runs, with the answers of its source.
   env/socket/socket.cc:98-129 (simulated or not), env/nsm/nsm.cc:95-115
   (simulated or not), env/sgx/sgx.cc:131-139.  For the processor's rdrand an
   answer is a 64-bit word, or None when it sets no carry flag. *)
Inductive env :=
| SocketSim (l : list answer)
| SocketCpu (l : list (option N))
| NsmSim (l : list answer)
| NsmChip (l : list answer)
| Sgx (a : answer).

(* How a call stands: it returned OK or Env_RandomBytes, leaving this memory;
   it waits for its source; or it wrote outside of the memory / failed a
   CHECK. *)
Inductive run := Done (ok : bool) (mem : bytes) | Waiting (mem : bytes) | Broken.

(* Storing bytes at an address: the source's writes through the pointer. *)
Definition store (mem : bytes) (pos : nat) (bs : bytes) : option bytes :=
  if length mem <? pos + length bs then None
  else Some (firstn pos mem ++ bs ++ skipn (pos + length bs) mem).

(* socket.cc:100-109 and nsm.cc:104-114: ask for what is missing, move on by
   what came.  The source writes no more than asked.  nsm_get_random takes the
   place of getrandom; a negative result / other code than success is
   [Failed]. *)
Fixpoint pull (l : list answer) (mem : bytes) (pos size : nat) : run :=
  if size =? 0 then Done true mem else
  match l with
  | [] => Waiting mem
  | Failed :: _ => Done false mem
  | Gave bs :: l' =>
      let got := firstn size bs in
      match store mem pos got with
      | None => Broken
      | Some mem' => pull l' mem' (pos + length got) (size - length got)
      end
  end.

(* socket.cc:110-127: a word at a time, as many of its bytes as are missing. *)
Fixpoint pull_words (l : list (option N)) (mem : bytes) (pos size : nat) : run :=
  if size =? 0 then Done true mem else
  match l with
  | [] => Waiting mem
  | None :: _ => Done false mem
  | Some r :: l' =>
      let got := firstn size (be64 r) in
      match store mem pos got with
      | None => Broken
      | Some mem' => pull_words l' mem' (pos + length got) (size - length got)
      end
  end.

(* nsm.cc:96-103: `got` is a size_t, so a failure (-1) is 2^64 - 1, which is
   not <= 0; and the pointer is not moved. `size -= got` wraps.  [size] is the
   size_t. *)
Fixpoint pull_nsm_sim (l : list answer) (mem : bytes) (pos : nat) (size : N) : run :=
  if (size =? 0)%N then Done true mem else
  match l with
  | [] => Waiting mem
  | Failed :: l' =>
      pull_nsm_sim l' mem pos ((size + 2 ^ 64 - (2 ^ 64 - 1)) mod 2 ^ 64)
  | Gave bs :: l' =>
      let got := if (blen bs <=? size)%N then bs else firstn (N.to_nat size) bs in
      if (blen got =? 0)%N then Done false mem else
      match store mem pos got with
      | None => Broken
      | Some mem' => pull_nsm_sim l' mem' pos ((size + 2 ^ 64 - blen got) mod 2 ^ 64)
      end
  end.

(* sgx.cc:131-139: CHECK(size > 0); oe_random fills all or reports a failure
   (an answer that is too short is one). *)
Definition pull_sgx (a : answer) (mem : bytes) (pos size : nat) : run :=
  if size =? 0 then Broken else
  match a with
  | Failed => Done false mem
  | Gave bs =>
      if length bs <? size then Done false mem else
      match store mem pos (firstn size bs) with
      | None => Broken
      | Some mem' => Done true mem'
      end
  end.

(* Environment::RandomBytes(mem + pos, size). *)
Definition random_bytes (e : env) (mem : bytes) (pos size : nat) : run :=
  match e with
  | SocketSim l => pull l mem pos size
  | SocketCpu l => pull_words l mem pos size
  | NsmSim l => pull_nsm_sim l mem pos (N.of_nat size)
  | NsmChip l => pull l mem pos size
  | Sgx a => pull_sgx a mem pos size
  end.

(* What a caller does: it goes on and uses these bytes, it answers its own
   caller with an error, it aborts, or it still waits. *)
Inductive then_do := Uses (bs : bytes) | Reports | Aborts | Waits.

(* CHECK(error::OK == RandomBytes(..)): env/env.cc:60-67 (everything that
   sodium draws: keys of the handshakes and of stored values), sip/hasher.cc:20
   and :43 (hash keys), noisewrap/wrap.cc:13 (handshakes).  [junk] is what the
   buffer holds before. *)
Definition draw_checked (e : env) (junk : bytes) : then_do :=
  match random_bytes e junk 0 (length junk) with
  | Done true bs => Uses bs
  | Done false _ => Aborts
  | Waiting _ => Waits
  | Broken => Aborts
  end.

(* An error is handed on: the id of a new group, core/core.cc:451-458; the name
   of a temporary directory, fs/fs.cc:42-49. *)
Definition draw_reported (e : env) (junk : bytes) : then_do :=
  match random_bytes e junk 0 (length junk) with
  | Done true bs => Uses bs
  | Done false _ => Reports
  | Waiting _ => Waits
  | Broken => Aborts
  end.

(* The result is not looked at: the key of the tree that guards the database,
   merkle/merkle.cc:21-26; the id of a replication, core/core.cc:615-617; the
   seed of the weak random numbers, ecalls/ecalls.cc:22-28. *)
Definition draw_unchecked (e : env) (junk : bytes) : then_do :=
  match random_bytes e junk 0 (length junk) with
  | Done _ bs => Uses bs
  | Waiting _ => Waits
  | Broken => Aborts
  end.

(* merkle.cc:21-26 SetSIPKey: the 16-byte key the tree hashes with. *)
Definition merkle_key (e : env) (junk : bytes) : then_do :=
  draw_unchecked e (firstn 16 (junk ++ repeat 0%N 16)).
(* core.cc:615-617: the replication id, the 8 bytes as they are drawn. *)
Definition replication_id (e : env) (junk : bytes) : then_do :=
  draw_unchecked e (firstn 8 (junk ++ repeat 0%N 8)).
(* core.cc:451-458: the group's id, the 8 bytes. *)
Definition new_group_id (e : env) (junk : bytes) : then_do :=
  draw_reported e (firstn 8 (junk ++ repeat 0%N 8)).
(* fs.cc:42-50: the 8 bytes in the directory's name. *)
Definition tmp_name (e : env) (junk : bytes) : then_do :=
  draw_reported e (firstn 8 (junk ++ repeat 0%N 8)).
(* hasher.cc:42-44: the key of the full hasher, 16 bytes. *)
Definition hasher_key (e : env) (junk : bytes) : then_do :=
  draw_checked e (firstn 16 (junk ++ repeat 0%N 16)).
(* env.cc:65-67 and wrap.cc:12-14: as many bytes as the library wants. *)
Definition library_bytes (e : env) (junk : bytes) : then_do :=
  draw_checked e junk.
