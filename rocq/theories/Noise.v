(* Model of enclave/noise/noise.cc Encrypt and Decrypt, and of how Peer::Send,
   Peer::Recv and client::Client use them.

   The AEAD itself (noise-c's cipher) is external: [enc] and [dec] of a key epoch
   (how often the key was changed by rekeying), a nonce, associated data and a text.
   Lengths here are nat; none comes near 2^64. *)
From Verif Require Export Base Hist.

Definition MAC : nat := 16.

Section Noise.
Context (enc : N -> N -> bytes -> bytes -> bytes) (dec : N -> N -> bytes -> bytes -> option bytes).
(* noise.cc:11 max_message_size *)
Context (M : nat).

(* noise-c's NoiseCipherState: how often rekeyed, and the next nonce *)
Record cipher := Cipher { k_epoch : N; k_nonce : N }.
Definition next (cs : cipher) : cipher := Cipher (k_epoch cs) (k_nonce cs + 1).
(* noise_cipherstate_encrypt_with_ad: fails when nonces are used up *)
Definition aead_encrypt (cs : cipher) (ad p : bytes) : option (bytes * cipher) :=
  if k_nonce cs =? 2 ^ 64 - 1 then None else Some (enc (k_epoch cs) (k_nonce cs) ad p, next cs).
(* noise_cipherstate_decrypt_with_ad: fails when too short for a MAC, too *)
Definition aead_decrypt (cs : cipher) (ad c : bytes) : option (bytes * cipher) :=
  if Nat.ltb (length c) MAC then None else
  if k_nonce cs =? 2 ^ 64 - 1 then None else
  match dec (k_epoch cs) (k_nonce cs) ad c with None => None | Some p => Some (p, next cs) end.
(* noise_cipherstate_rekey *)
Definition rekey (cs : cipher) : cipher := Cipher (k_epoch cs + 1) (k_nonce cs).

Definition sub (s : bytes) (off n : nat) : bytes := firstn n (skipn off s).
Definition overwrite (buf : bytes) (off : nat) (d : bytes) : bytes := firstn off buf ++ d ++ skipn (off + length d) buf.

(* noise.cc:34-52, the loop; [fuel] bounds its iterations, and running out of it or
   writing behind the buffer's end is a crash *)
Fixpoint encrypt_loop (fuel : nat) (with_ad : bool) (plain : bytes) (final start pstart : nat) (buf : bytes) (cs : cipher)
    : outcome (option (bytes * cipher)) :=
  if Nat.ltb start final then
    match fuel with
    | O => Crash
    | S fuel' =>
        let psize := Nat.min (M - MAC) (length plain - pstart) in
        if Nat.ltb final (start + psize + MAC) then Crash else
        let ad := if with_ad then [if Nat.leb final (start + M) then 1 else 0] else [] in
        match aead_encrypt cs ad (sub plain pstart psize) with
        | None => Ret None
        | Some (c, cs') => encrypt_loop fuel' with_ad plain final (start + M) (pstart + psize) (overwrite buf start c) cs'
        end
    end
  else Ret (Some (buf, cs)).
(* noise.cc:13-54 Encrypt *)
Definition encrypt (with_ad : bool) (cs : cipher) (plain : bytes) : outcome (option (bytes * cipher)) :=
  let max_enc := (M - MAC)%nat in
  let orig := length plain in
  let n1 := (orig / max_enc + 1)%nat in
  let num_macs := if (Nat.eqb (orig mod max_enc) 0 && Nat.ltb 1 n1)%bool then (n1 - 1)%nat else n1 in
  let final := (orig + MAC * num_macs)%nat in
  encrypt_loop (S final) with_ad plain final 0 0 (repeat 0 final) cs.

(* noise.cc:60-78, the loop.  Plaintext is written in place, never ahead of what is
   read; here it is collected. *)
Fixpoint decrypt_loop (fuel : nat) (with_ad : bool) (ct : bytes) (start : nat) (acc : bytes) (cs : cipher) : outcome (option (bytes * cipher)) :=
  if Nat.ltb start (length ct) then
    match fuel with
    | O => Crash
    | S fuel' =>
        let size := Nat.min M (length ct - start) in
        let ad := if with_ad then [if Nat.leb (length ct) (start + M) then 1 else 0] else [] in
        match aead_decrypt cs ad (sub ct start size) with
        | None => Ret None
        | Some (p, cs') => decrypt_loop fuel' with_ad ct (start + M) (acc ++ p) cs'
        end
    end
  else Ret (Some (acc, cs)).
(* noise.cc:56-81 Decrypt *)
Definition decrypt (with_ad : bool) (cs : cipher) (ct : bytes) : outcome (option (bytes * cipher)) :=
  decrypt_loop (S (length ct)) with_ad ct 0 [] cs.

(* --- one direction of a link between enclaves ------------------------------- *)
(* peers.h:143-146: tx_ and tx_rekey_, or rx_ and rx_rekey_; None when not connected.
   The keys of a new connection count as epoch 0, nonce 0. *)
Record chan := Chan { ch_cipher : cipher; ch_count : N }.
Definition new_chan : chan := Chan (Cipher 0 0) 0.
(* peers.cc:92-94, 138-140 *)
Definition counted (ch : chan) (cs : cipher) : chan :=
  let c := (ch_count ch + 1) mod 256 in
  Chan (if c =? 0 then rekey cs else cs) c.
(* peers.cc:71-99 Peer::Send: the data of the message sent, None for an error *)
Definition peer_send (s : option chan) (m : bytes) : outcome (option chan * option bytes) :=
  match s with
  | None => Ret (None, None)
  | Some ch =>
      match encrypt true (ch_cipher ch) m with
      | Crash => Crash
      | Ret None => Ret (None, None)
      | Ret (Some (ct, cs)) => Ret (Some (counted ch cs), Some ct)
      end
  end.
(* peers.cc:121-141 Peer::Recv, data: the serialized message, None for an error *)
Definition peer_recv (s : option chan) (d : bytes) : outcome (option chan * option bytes) :=
  match s with
  | None => Ret (None, None)
  | Some ch =>
      match decrypt true (ch_cipher ch) d with
      | Crash => Crash
      | Ret None => Ret (None, None)
      | Ret (Some (p, cs)) => Ret (Some (counted ch cs), Some p)
      end
  end.

(* --- the channel between enclave and client --------------------------------- *)
(* client.cc:145-156 EncryptResponse; the client encrypts its requests likewise.
   No associated data (client.cc:24), no rekeying. *)
Definition client_send (cs : cipher) (m : bytes) : outcome (cipher * option bytes) :=
  match encrypt false cs m with
  | Crash => Crash
  | Ret None => Ret (cs, None)
  | Ret (Some (ct, cs')) => Ret (cs', Some ct)
  end.
(* client.cc:129-143 DecryptRequest.  After an error the client is removed
   (core.cc:232-235) but another thread may still be using it; what noise-c then has
   made of the nonce is an input: how far it moved. *)
Definition client_recv (cs : cipher) (d : bytes * N) : outcome (cipher * option bytes) :=
  match decrypt false cs (fst d) with
  | Crash => Crash
  | Ret None => Ret (Cipher (k_epoch cs) (k_nonce cs + snd d), None)
  | Ret (Some (p, cs')) => Ret (cs', Some p)
  end.
End Noise.
