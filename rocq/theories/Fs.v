(* Files and temporary directories of the enclave process: enclave/fs/fs.cc.
   Simplified: a file does not change while it is read; a directory is a tree;
   removing a file, or a directory with nothing in it, works. *)
From Verif Require Import Base.

(* --- FileContents, fs.cc:20-39 --- *)
(* POSIX open: the lowest descriptor that is not in use. *)
Definition used (fds : list nat) (n : nat) : bool := existsb (Nat.eqb n) fds.
Definition lowest (fds : list nat) : nat :=
  match find (fun n => negb (used fds n)) (seq 0 (S (length fds))) with Some n => n | None => 0 end.
Definition closed (n : nat) (fds : list nat) : list nat := filter (fun m => negb (Nat.eqb n m)) fds.
(* How the i-th read goes: an error, or how much there is at hand (a read gives
   at least one byte if there is one, and at most sizeof(buf) = 64). *)
Definition reads := nat -> option nat.
Definition given (n : nat) (rest : bytes) : nat := Nat.min (Nat.max 1 n) (Nat.min 64 (length rest)).
(* fs.cc:29-36; None for an error *)
Fixpoint read_loop (rd : reads) (fuel i : nat) (rest out : bytes) : option bytes :=
  match rd i with
  | None => None
  | Some n =>
      match rest, fuel with
      | [], _ => Some out
      | _, O => None
      | _, S k => read_loop rd k (S i) (skipn (given n rest) rest) (out ++ firstn (given n rest) rest)
      end
  end.
(* The file, if it can be opened; the descriptors in use.  The contents or an
   error, and the descriptors in use after it. *)
Definition file_contents (file : option bytes) (rd : reads) (fds : list nat) : option bytes * list nat :=
  match file with
  | None => (None, fds)
  | Some content =>
      let fd := lowest fds in
      if Nat.leb fd 0 then (None, fd :: fds)
      else (read_loop rd (length content) 0 content [], closed fd (fd :: fds))
  end.

(* --- TmpDir, fs.cc:41-85 --- *)
(* What is in /tmp: names and trees.  Other: links, pipes, sockets and so on. *)
Inductive node := File | Dir (es : list (bytes * node)) | Other.
(* fs.cc:70-84: what is left of a tree (None: nothing).  fts gives the entries
   of a directory before the directory again. *)
Fixpoint rm (t : node) : option node :=
  match t with
  | File => None
  | Other => Some Other
  | Dir es =>
      let left := (fix go es := match es with
                   | [] => []
                   | (n, s) :: r => match rm s with None => go r | Some s' => (n, s') :: go r end
                   end) es in
      match left with [] => None | _ => Some (Dir left) end
  end.
Definition tmp := list (bytes * node).
Definition has (fs : tmp) (n : bytes) : bool := existsb (fun e => if list_eq_dec N.eq_dec (fst e) n then true else false) fs.
(* fs.cc:41-58: [name] of the object (empty before), the name drawn.  mkdir
   does not take a name that there is. *)
Definition init (name drawn : bytes) (fs : tmp) : bytes * tmp * bool :=
  match name with
  | _ :: _ => (name, fs, false)
  | [] => if has fs drawn then ([], fs, false) else (drawn, (drawn, Dir []) :: fs, true)
  end.
(* fs.cc:60-85 *)
Definition destroy (name : bytes) (fs : tmp) : tmp :=
  match name with
  | [] => fs
  | _ => flat_map (fun e => if list_eq_dec N.eq_dec (fst e) name
                            then match rm (snd e) with None => [] | Some t => [(fst e, t)] end
                            else [e]) fs
  end.
