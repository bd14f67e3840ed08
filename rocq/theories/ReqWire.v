(* Requests and log entries as bytes: what ParseFromString and SerializeToString make of
   the messages of shared/proto/client.proto, client3.proto, client4.proto, client5.proto
   and enclave/proto/clientlog.proto; and what the enclave puts into its log for a request
   of the host (core.cc:772-798).

   Simplification: fields that a message does not know are dropped; the library keeps
   them and writes them out again, behind the others. *)
From Verif Require Export Wire.
From Verif Require Import DB2 DB3 DB4 DB5.

(* fixed32 fields *)
Definition le32 (n : N) : bytes := [n mod 256; n / 2 ^ 8 mod 256; n / 2 ^ 16 mod 256; n / 2 ^ 24 mod 256].
Definition le32_value (b : bytes) : N := match b with [a; b; c; d] => a + 2 ^ 8 * b + 2 ^ 16 * c + 2 ^ 24 * d | _ => 0 end.
Fixpoint get_32 (f : N) (l : list field) (d : N) : N :=
  match l with
  | [] => d
  | (g, W32 b) :: l' => get_32 f l' (if g =? f then le32_value b else d)
  | _ :: l' => get_32 f l' d
  end.
Definition opt_32 (f : N) (n : N) : list field := if n =? 0 then [] else [(f, W32 (le32 n))].

(* Message fields: a part that does not parse makes the whole fail; parts of the same
   field are merged, which is what parsing them one behind the other gives. *)
Definition is_part (fs : list N) (fv : field) : bool := match fv with (g, WBytes _) => existsb (N.eqb g) fs | _ => false end.
Definition part (fv : field) : bytes := match fv with (_, WBytes b) => b | _ => [] end.
Definition parts_ok (fs : list N) (l : list field) : bool :=
  forallb (fun fv => match parse_msg (part fv) with Some _ => true | None => false end) (filter (is_part fs) l).
Definition whole (f : N) (l : list field) : bytes := flat_map part (filter (is_part [f]) l).
(* oneof: the last of its fields is set, merged with those of the same field right before it *)
Fixpoint oneof (fs : list N) (l : list field) (cur : option (N * bytes)) : option (N * bytes) :=
  match l with
  | [] => cur
  | fv :: l' =>
      oneof fs l' (if is_part fs fv
                   then match cur with
                        | Some (g, b) => if g =? fst fv then Some (g, b ++ part fv) else Some (fst fv, part fv)
                        | None => Some (fst fv, part fv)
                        end
                   else cur)
  end.
(* a message that holds one oneof of messages: which is set, and its fields *)
Definition read_oneof (fs : list N) (s : bytes) : option (option (N * list field)) :=
  match parse_msg s with
  | None => None
  | Some l =>
      if negb (parts_ok fs l) then None
      else match oneof fs l None with
           | None => Some None
           | Some (g, b) => match parse_msg b with Some m => Some (Some (g, m)) | None => None end
           end
  end.
Definition in_oneof (f : N) (m : list field) : bytes := ser_msg [(f, WBytes (ser_msg m))].

(* client.proto:25-33, 48-110 *)
Definition parse_req2 (s : bytes) : option req2 :=
  match read_oneof [2; 5; 3; 4; 6] s with
  | None => None
  | Some None => Some ReqUnset
  | Some (Some (g, m)) => Some (
      if g =? 2 then Backup (get_bytes 1 m []) (get_bytes 2 m []) (get_var 3 m 0 mod 2 ^ 32)
      else if g =? 5 then Expose (get_bytes 1 m [])
      else if g =? 3 then Restore (get_bytes 1 m [])
      else if g =? 4 then Delete
      else Tries)
  end.
Definition ser_req2 (r : req2) : bytes :=
  match r with
  | Backup data pin t => in_oneof 2 (opt_bytes 1 data ++ opt_bytes 2 pin ++ opt_var 3 t)
  | Expose data => in_oneof 5 (opt_bytes 1 data)
  | Restore pin => in_oneof 3 (opt_bytes 1 pin)
  | Delete => in_oneof 4 []
  | Tries => in_oneof 6 []
  | ReqUnset => []
  end.
(* client3.proto:12-19, 34-72 *)
Definition parse_req3 (s : bytes) : option req3 :=
  match read_oneof [1; 2; 3; 4] s with
  | None => None
  | Some None => Some Unset3
  | Some (Some (g, m)) => Some (
      if g =? 1 then Create3 (get_var 1 m 0 mod 2 ^ 32) (get_bytes 2 m [])
      else if g =? 2 then Evaluate3 (get_bytes 1 m [])
      else if g =? 3 then Remove3
      else Query3)
  end.
Definition ser_req3 (r : req3) : bytes :=
  match r with
  | Create3 t e => in_oneof 1 (opt_var 1 t ++ opt_bytes 2 e)
  | Evaluate3 e => in_oneof 2 (opt_bytes 1 e)
  | Remove3 => in_oneof 3 []
  | Query3 => in_oneof 4 []
  | Unset3 => []
  end.
(* client4.proto:12-55 *)
Definition parse_req4 (s : bytes) : option req4 :=
  match read_oneof [1; 2; 3; 4; 5; 6; 7; 8] s with
  | None => None
  | Some None => Some Unset4
  | Some (Some (g, m)) => Some (
      if g =? 1 then Create4 (get_var 1 m 0 mod 2 ^ 32) (get_bytes 2 m []) (get_bytes 3 m []) (get_bytes 4 m []) (get_bytes 5 m []) (get_32 6 m 0)
      else if g =? 2 then Restore1_4 (get_bytes 1 m [])
      else if g =? 3 then Restore2_4 (get_bytes 1 m []) (get_bytes 2 m []) (get_32 3 m 0)
      else if g =? 4 then Remove4
      else if g =? 5 then Query4
      else if g =? 6 then RotateStart4 (get_32 1 m 0) (get_bytes 2 m []) (get_bytes 3 m [])
      else if g =? 7 then RotateCommit4 (get_32 1 m 0)
      else RotateRollback4 (get_32 1 m 0))
  end.
Definition ser_req4 (r : req4) : bytes :=
  match r with
  | Create4 t oprf auth enc zero v => in_oneof 1 (opt_var 1 t ++ opt_bytes 2 oprf ++ opt_bytes 3 auth ++ opt_bytes 4 enc ++ opt_bytes 5 zero ++ opt_32 6 v)
  | Restore1_4 b => in_oneof 2 (opt_bytes 1 b)
  | Restore2_4 p s v => in_oneof 3 (opt_bytes 1 p ++ opt_bytes 2 s ++ opt_32 3 v)
  | Remove4 => in_oneof 4 []
  | Query4 => in_oneof 5 []
  | RotateStart4 v od ed => in_oneof 6 (opt_32 1 v ++ opt_bytes 2 od ++ opt_bytes 3 ed)
  | RotateCommit4 v => in_oneof 7 (opt_32 1 v)
  | RotateRollback4 v => in_oneof 8 (opt_32 1 v)
  | Unset4 => []
  end.
(* client5.proto:12-27 *)
Definition parse_req5 (s : bytes) : option req5 :=
  match read_oneof [1; 2; 3] s with
  | None => None
  | Some None => Some Unset5
  | Some (Some (g, m)) => Some (
      if g =? 1 then Upload5 (get_bytes 1 m [])
      else if g =? 2 then Download5 (get_bytes 1 m [])
      else Purge5)
  end.
Definition ser_req5 (r : req5) : bytes :=
  match r with
  | Upload5 d => in_oneof 1 (opt_bytes 1 d)
  | Download5 p => in_oneof 2 (opt_bytes 1 p)
  | Purge5 => in_oneof 3 []
  | Unset5 => []
  end.

(* clientlog.proto:15-40: backup_id = 1, req = 2 (always set: MergeFrom), create_privkey = 3 *)
Definition read_log {R} (parse_req : bytes -> option R) (s : bytes) : option (bytes * R * bytes) :=
  match parse_msg s with
  | None => None
  | Some l =>
      if negb (forallb (fun fv => match parse_req (part fv) with Some _ => true | None => false end) (filter (is_part [2]) l)) then None
      else match parse_req (whole 2 l) with
           | None => None
           | Some r => Some (get_bytes 1 l [], r, get_bytes 3 l [])
           end
  end.
Definition parse_log2 (s : bytes) : option log2 := match read_log parse_req2 s with Some (id, r, _) => Some (Log2 id r) | None => None end.
Definition parse_log3 (s : bytes) : option log3 := match read_log parse_req3 s with Some (id, r, k) => Some (Log3 id r k) | None => None end.
Definition parse_log4 (s : bytes) : option log4 := match read_log parse_req4 s with Some (id, r, _) => Some (Log4 id r) | None => None end.
Definition parse_log5 (s : bytes) : option log5 := match read_log parse_req5 s with Some (id, r, _) => Some (Log5 id r) | None => None end.
Definition ser_log2 (l : log2) : bytes := ser_msg (opt_bytes 1 (l_id l) ++ [(2, WBytes (ser_req2 (l_req l)))]).
Definition ser_log3 (l : log3) : bytes := ser_msg (opt_bytes 1 (l3_id l) ++ [(2, WBytes (ser_req3 (l3_req l)))] ++ opt_bytes 3 (l3_priv l)).
Definition ser_log4 (l : log4) : bytes := ser_msg (opt_bytes 1 (l4_id l) ++ [(2, WBytes (ser_req4 (l4_req l)))]).
Definition ser_log5 (l : log5) : bytes := ser_msg (opt_bytes 1 (l5_id l) ++ [(2, WBytes (ser_req5 (l5_req l)))]).

(* db2.cc:48-62 LogFromRequest *)
Definition log_from_request2 (auth_id : bytes) (r : req2) : log2 + dberr :=
  if negb (Nat.eqb (length auth_id) BACKUP_ID_SIZE) then inr E_BackupIDSize else inl (Log2 auth_id r).

(* What a request of the host (core.cc:772-786) becomes in the log; None: it is refused.
   A log that could not be applied is not refused here. *)
Definition host_entry {R L} (parse_req : bytes -> option R) (log_from : bytes -> R -> L + dberr) (ser_log : L -> bytes) (id request : bytes) : option bytes :=
  match parse_req request with
  | None => None
  | Some r => match log_from id r with inl l => Some (ser_log l) | inr _ => None end
  end.
Definition host_entry2 := host_entry parse_req2 log_from_request2 ser_log2.
Definition host_entry3 (newkey : bytes) := host_entry parse_req3 (log_from_request3 newkey) ser_log3.
Definition host_entry4 := host_entry parse_req4 log_from_request4 ser_log4.
Definition host_entry5 := host_entry parse_req5 log_from_request5 ser_log5.
(* What a request of a client (core.cc:406, 432-441) becomes: it has to validate. *)
Definition client_entry {R L} (parse_req : bytes -> option R) (log_from : bytes -> R -> L + dberr) (validate : L -> dberr) (ser_log : L -> bytes) (id request : bytes) : option bytes :=
  match parse_req request with
  | None => None
  | Some r =>
      match log_from id r with
      | inl l => match validate l with E_OK => Some (ser_log l) | _ => None end
      | inr _ => None
      end
  end.
Definition client_entry2 := client_entry parse_req2 log_from_request2 validate2 ser_log2.
Definition client_entry3 (newkey : bytes) := client_entry parse_req3 (log_from_request3 newkey) validate3 ser_log3.
Definition client_entry4 (c : crypto4) := client_entry parse_req4 log_from_request4 (validate4 c) ser_log4.
Definition client_entry5 := client_entry parse_req5 log_from_request5 validate5 ser_log5.
