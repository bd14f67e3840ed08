(* Model of enclave/minimums/minimums.{h,cc} and of how core.cc changes the limits
   of a running group.

   protobuf maps are association lists in key order; C++ goes through them in an
   unspecified order, so where an update has several faults the error it reports
   may be another one than here. *)
From Verif Require Export SMap Util.

Definition limits := @smap bytes.
Definition values := @smap bytes.

Inductive minerr := Min_OK | Min_KeyMissing | Min_EntryEmpty | Min_KeyEmpty | Min_LimitDecreased | Min_SizeMismatch
  | Min_ValueTooLow | Min_ValueSize.

(* minimums.cc:14-18 *)
Fixpoint keys_kept (old new : limits) : bool :=
  match old with
  | [] => true
  | (k, _) :: old' => (match lookup k new with Some _ => true | None => false end && keys_kept old' new)%bool
  end.
(* minimums.cc:19-39 *)
Fixpoint entries_ok (old new : limits) : minerr :=
  match new with
  | [] => Min_OK
  | (k, v) :: new' =>
      if blen v =? 0 then Min_EntryEmpty else
      if beq k [] then Min_KeyEmpty else
      match lookup k old with
      | None => entries_ok old new'
      | Some o =>
          if blt v o then Min_LimitDecreased else
          if negb (blen o =? blen v) then Min_SizeMismatch else
          entries_ok old new'
      end
  end.
(* minimums.cc:11-47 UpdateLimits: the limits afterwards and the error *)
Definition update_limits (old new : limits) : limits * minerr :=
  if negb (keys_kept old new) then (old, Min_KeyMissing) else
  match entries_ok old new with Min_OK => (new, Min_OK) | e => (old, e) end.

(* minimums.cc:67-79 CheckValueAgainstSet *)
Definition check_value (s : limits) (k v : bytes) : minerr :=
  match lookup k s with
  | None => Min_OK
  | Some limit => if blt v limit then Min_ValueTooLow else if negb (blen v =? blen limit) then Min_ValueSize else Min_OK
  end.
(* minimums.cc:55-65 CheckValuesAgainstSet, CheckValues *)
Fixpoint check_values (s : limits) (v : values) : minerr :=
  match v with
  | [] => Min_OK
  | (k, x) :: v' => match check_value s k x with Min_OK => check_values s v' | e => e end
  end.

(* minimums.h:34-42 *)
Definition min_u64 (v : N) : bytes := be64 v.
Definition min_u8 (v : N) : bytes := [v].

(* --- the limits of a running replica ------------------------------------- *)
(* core.cc:885-911, 1859-1867: the limits in force, the updates in the Raft log that
   are not applied yet, and the values the connected peers attested to *)
Record mcore := MCore { mc_limits : limits; mc_log : list limits; mc_peers : list values }.

Inductive mop := MRequest (u : limits) | MCommit.

Definition is_ok (e : minerr) : bool := match e with Min_OK => true | _ => false end.

(* core.cc:885-911 HandleUpdateMinimums.  The entry it writes can be one of many
   that wait to be committed.  peers.cc:478-487 CheckMinimums. *)
Definition request_update (u : limits) (s : mcore) : mcore * bool :=
  let '(l, e) := update_limits (mc_limits s) u in
  if (is_ok e && forallb (fun p => is_ok (check_values l p)) (mc_peers s))%bool
  then (MCore (mc_limits s) (mc_log s ++ [u]) (mc_peers s), true) else (s, false).

(* core.cc:1859-1868 HandleRaftMinimumsChange for the next committed entry: an
   update that fails is a CHECK failure; peers that fall short are dropped *)
Definition commit_update (s : mcore) : outcome mcore :=
  match mc_log s with
  | [] => Ret s
  | u :: q =>
      let '(l, e) := update_limits (mc_limits s) u in
      if is_ok e then Ret (MCore l q (filter (fun p => is_ok (check_values l p)) (mc_peers s))) else Crash
  end.

Definition mstep (s : mcore) (o : mop) : outcome (mcore * bool) :=
  match o with
  | MRequest u => Ret (request_update u s)
  | MCommit => match commit_update s with Ret s' => Ret (s', true) | Crash => Crash end
  end.
