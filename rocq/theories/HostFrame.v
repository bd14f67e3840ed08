(* Model of the frames on connections between hosts (host/peer/serialize.go).  The
   serialisation of messages (protobuf) is not modelled: a payload is a byte string.  A
   bufio.Reader gives the bytes of the connection in order whatever the sizes of the
   reads from it, so that the input is the list of the bytes to come. *)
From Verif Require Export Base.

(* host/peer/peer.go:12, 128 MiB *)
Definition max_message : N := 1024 * 1024 * 128.

(* encoding/binary PutUvarint: [f] bytes are left in the array; None: it panics *)
Fixpoint put_uvarint (f : nat) (x : N) : option bytes :=
  match f with
  | O => None
  | S f' =>
      if x <? 128 then Some [x]
      else match put_uvarint f' (N.shiftr x 7) with
           | None => None
           | Some r => Some (N.lor (x mod 256) 128 :: r)
           end
  end.
(* serialize.go:26-39 writeFramed; the array has MaxVarintLen64 = 10 bytes *)
Definition write_framed (payload : bytes) : option bytes :=
  match put_uvarint 10 (blen payload) with None => None | Some h => Some (h ++ payload) end.

(* encoding/binary ReadUvarint: [f] bytes may still be read; the value or an error, and
   the rest of the input *)
Fixpoint read_uvarint (f : nat) (s x : N) (input : bytes) : option N * bytes :=
  match f with
  | O => (None, input)
  | S f' =>
      match input with
      | [] => (None, [])
      | b :: r =>
          if b <? 128 then
            if ((f' =? 0)%nat && (1 <? b))%bool then (None, r)
            else (Some (N.lor x (N.shiftl b s)), r)
          else read_uvarint f' (s + 7) (N.lor x (N.shiftl (N.land b 127) s)) r
      end
  end.
(* serialize.go:53-67 readFramedRaw: the payload or an error, the bytes allocated for it,
   and the rest of the input *)
Record fres := FRes { f_out : option bytes; f_alloc : N; f_rest : bytes }.
Definition read_framed (input : bytes) : fres :=
  match read_uvarint 10 0 0 input with
  | (None, r) => FRes None 0 r
  | (Some n, r) =>
      if max_message <? n then FRes None 0 r
      else if blen r <? n then FRes None n []
      else FRes (Some (firstn (N.to_nat n) r)) n (skipn (N.to_nat n) r)
  end.
