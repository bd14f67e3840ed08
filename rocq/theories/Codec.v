(* Model of enclave/util/hex.{h,cc}, base64.{h,cc} and enclave/peerid/peerid.{h,cc}.
   Characters are their codes. *)
From Verif Require Export Util.

(* --- hex ------------------------------------------------------------------ *)
(* hex.cc:10-20 HexCharToNibble; char is signed, which no comparison here notices *)
Definition hex_nibble (c : N) : N :=
  if ((48 <=? c) && (c <=? 57))%bool then c - 48
  else if ((97 <=? c) && (c <=? 102))%bool then 10 + (c - 97)
  else if ((65 <=? c) && (c <=? 70))%bool then 10 + (c - 65)
  else 255.
(* hex.cc:25 *)
Definition nibbles : bytes := [48; 49; 50; 51; 52; 53; 54; 55; 56; 57; 97; 98; 99; 100; 101; 102].
(* hex.cc:24-32 BytesToHex *)
Definition bytes_to_hex (s : bytes) : bytes :=
  flat_map (fun b => [nth (N.to_nat (N.shiftr (N.land b 240) 4)) nibbles 0; nth (N.to_nat (N.land b 15)) nibbles 0]) s.
(* hex.h:17-20 PrefixToHex *)
Definition prefix_to_hex (s : bytes) (n : nat) : bytes := bytes_to_hex (firstn n s).

Inductive hexres := Hex_OK (out : bytes) | Hex_BytesSize | Hex_CharInvalid.
(* hex.cc:39-46; the string returned along with an error is left out *)
Fixpoint hex_loop (s : bytes) : hexres :=
  match s with
  | c1 :: c2 :: s' =>
      let n1 := hex_nibble c1 in
      let n2 := hex_nibble c2 in
      if ((n1 =? 255) || (n2 =? 255))%bool then Hex_CharInvalid else
      match hex_loop s' with
      | Hex_OK o => Hex_OK (N.lor (N.shiftl n1 4) n2 mod 256 :: o)
      | e => e
      end
  | _ => Hex_OK []
  end.
(* hex.cc:34-48 HexToBytes *)
Definition hex_to_bytes (s : bytes) : hexres :=
  if negb (blen s mod 2 =? 0) then Hex_BytesSize else hex_loop s.

(* --- base64 --------------------------------------------------------------- *)
(* base64.h:12-15 *)
Record b64enc := B64Enc { b64_decode_table : list Z; b64_alphabet : bytes }.
(* base64.cc:11-31 *)
Definition b64std : b64enc := B64Enc
  [-1; -1; -1; -1; -1; -1; -1; -1; -1; -1; -1; -1; -1; -1; -1; -1;
   -1; -1; -1; -1; -1; -1; -1; -1; -1; -1; -1; -1; -1; -1; -1; -1;
   -1; -1; -1; -1; -1; -1; -1; -1; -1; -1; -1; 62; -1; -1; -1; 63;
   52; 53; 54; 55; 56; 57; 58; 59; 60; 61; -1; -1; -1; -1; -1; -1;
   -1; 0; 1; 2; 3; 4; 5; 6; 7; 8; 9; 10; 11; 12; 13; 14;
   15; 16; 17; 18; 19; 20; 21; 22; 23; 24; 25; -1; -1; -1; -1; -1;
   -1; 26; 27; 28; 29; 30; 31; 32; 33; 34; 35; 36; 37; 38; 39; 40;
   41; 42; 43; 44; 45; 46; 47; 48; 49; 50; 51; -1; -1; -1; -1; -1;
   -1; -1; -1; -1; -1; -1; -1; -1; -1; -1; -1; -1; -1; -1; -1; -1;
   -1; -1; -1; -1; -1; -1; -1; -1; -1; -1; -1; -1; -1; -1; -1; -1;
   -1; -1; -1; -1; -1; -1; -1; -1; -1; -1; -1; -1; -1; -1; -1; -1;
   -1; -1; -1; -1; -1; -1; -1; -1; -1; -1; -1; -1; -1; -1; -1; -1;
   -1; -1; -1; -1; -1; -1; -1; -1; -1; -1; -1; -1; -1; -1; -1; -1;
   -1; -1; -1; -1; -1; -1; -1; -1; -1; -1; -1; -1; -1; -1; -1; -1;
   -1; -1; -1; -1; -1; -1; -1; -1; -1; -1; -1; -1; -1; -1; -1; -1;
   -1; -1; -1; -1; -1; -1; -1; -1; -1; -1; -1; -1; -1; -1; -1; -1]%Z
  [65; 66; 67; 68; 69; 70; 71; 72; 73; 74; 75; 76; 77; 78; 79; 80;
   81; 82; 83; 84; 85; 86; 87; 88; 89; 90; 97; 98; 99; 100; 101; 102;
   103; 104; 105; 106; 107; 108; 109; 110; 111; 112; 113; 114; 115; 116; 117; 118;
   119; 120; 121; 122; 48; 49; 50; 51; 52; 53; 54; 55; 56; 57; 43; 47].
(* base64.cc:33-53 *)
Definition b64url : b64enc := B64Enc
  [-1; -1; -1; -1; -1; -1; -1; -1; -1; -1; -1; -1; -1; -1; -1; -1;
   -1; -1; -1; -1; -1; -1; -1; -1; -1; -1; -1; -1; -1; -1; -1; -1;
   -1; -1; -1; -1; -1; -1; -1; -1; -1; -1; -1; -1; -1; 62; -1; -1;
   52; 53; 54; 55; 56; 57; 58; 59; 60; 61; -1; -1; -1; -1; -1; -1;
   -1; 0; 1; 2; 3; 4; 5; 6; 7; 8; 9; 10; 11; 12; 13; 14;
   15; 16; 17; 18; 19; 20; 21; 22; 23; 24; 25; -1; -1; -1; -1; 63;
   -1; 26; 27; 28; 29; 30; 31; 32; 33; 34; 35; 36; 37; 38; 39; 40;
   41; 42; 43; 44; 45; 46; 47; 48; 49; 50; 51; -1; -1; -1; -1; -1;
   -1; -1; -1; -1; -1; -1; -1; -1; -1; -1; -1; -1; -1; -1; -1; -1;
   -1; -1; -1; -1; -1; -1; -1; -1; -1; -1; -1; -1; -1; -1; -1; -1;
   -1; -1; -1; -1; -1; -1; -1; -1; -1; -1; -1; -1; -1; -1; -1; -1;
   -1; -1; -1; -1; -1; -1; -1; -1; -1; -1; -1; -1; -1; -1; -1; -1;
   -1; -1; -1; -1; -1; -1; -1; -1; -1; -1; -1; -1; -1; -1; -1; -1;
   -1; -1; -1; -1; -1; -1; -1; -1; -1; -1; -1; -1; -1; -1; -1; -1;
   -1; -1; -1; -1; -1; -1; -1; -1; -1; -1; -1; -1; -1; -1; -1; -1;
   -1; -1; -1; -1; -1; -1; -1; -1; -1; -1; -1; -1; -1; -1; -1; -1]%Z
  [65; 66; 67; 68; 69; 70; 71; 72; 73; 74; 75; 76; 77; 78; 79; 80;
   81; 82; 83; 84; 85; 86; 87; 88; 89; 90; 97; 98; 99; 100; 101; 102;
   103; 104; 105; 106; 107; 108; 109; 110; 111; 112; 113; 114; 115; 116; 117; 118;
   119; 120; 121; 122; 48; 49; 50; 51; 52; 53; 54; 55; 56; 57; 45; 95].

Inductive b64res := B64_OK (out : bytes) | B64_InvalidPadding | B64_InvalidChar.

(* base64.cc:58 *)
Definition pad_char : N := 61.

(* base64.cc:60-92 B64DecodeInline: the loop at position i, with j bytes written.
   The bytes written are the result; they overwrite only characters already read
   (j <= i, which the code CHECKs).  char is signed on x86-64, so that a character
   from 128 on becomes an index far outside the table.  On an error the caller's
   string is left half decoded, which is left out. *)
Fixpoint b64_loop (e : b64enc) (s : bytes) (i j acc bits : N) : outcome b64res :=
  match s with
  | [] => Ret (B64_OK [])
  | c :: s' =>
      if c =? pad_char then
        if forallb (fun x => x =? pad_char) s' then Ret (B64_OK []) else Ret B64_InvalidPadding
      else if 128 <=? c then Crash
      else
        match nth_error (b64_decode_table e) (N.to_nat c) with
        | None => Crash
        | Some v =>
            if Z.eqb v (-1) then Ret B64_InvalidChar else
            let acc := N.lor (N.shiftl acc 6) (Z.to_N v) mod 2 ^ 16 in
            let bits := bits + 6 in
            if 8 <=? bits then
              if i <? j then Crash else
              match b64_loop e s' (i + 1) (j + 1) acc (bits - 8) with
              | Ret (B64_OK o) => Ret (B64_OK (N.shiftr acc (bits - 8) mod 256 :: o))
              | r => r
              end
            else b64_loop e s' (i + 1) j acc bits
        end
  end.
Definition b64_decode (e : b64enc) (s : bytes) : outcome b64res := b64_loop e s 0 0 0 0.

(* base64.cc:103-107: the inner loop, which makes bits / 6 turns *)
Fixpoint b64_emit (e : b64enc) (turns : nat) (bits work : N) : bytes :=
  match turns with
  | O => []
  | S t => nth (N.to_nat (N.land (N.shiftr work (bits - 6)) 63)) (b64_alphabet e) 0 :: b64_emit e t (bits - 6) work
  end.
(* base64.cc:94-118 Base64Encode *)
Fixpoint b64_enc_loop (e : b64enc) (padding : bool) (s : bytes) (bits work : N) : bytes :=
  match s with
  | [] =>
      if bits =? 0 then [] else
      nth (N.to_nat (N.land (N.shiftl work (6 - bits) mod 2 ^ 16) 63)) (b64_alphabet e) 0
      :: (if padding then if bits =? 2 then [pad_char; pad_char] else [pad_char] else [])
  | b :: s' =>
      let bits := bits + 8 in
      let work := N.lor (N.shiftl work 8) b mod 2 ^ 16 in
      b64_emit e (N.to_nat (bits / 6)) bits work ++ b64_enc_loop e padding s' (bits mod 6) work
  end.
Definition b64_encode (e : b64enc) (padding : bool) (s : bytes) : bytes := b64_enc_loop e padding s 0 0.

(* --- peer ids ------------------------------------------------------------- *)
(* peerid.cc:26-32 FromString *)
Definition peer_from_string (s : bytes) : option bytes := if blen s =? 32 then Some s else None.
(* peerid.cc:37-40 ToString *)
Definition peer_to_string (p : bytes) : bytes := p.
(* peerid.cc:14, 25, 33-36 *)
Definition peer_zero : bytes := zeros 32.
Definition peer_valid (p : bytes) : bool := negb (beq p peer_zero).
(* peerid.h:39-41 *)
Definition peer_eq (p q : bytes) : bool := beq p q.
Definition peer_lt (p q : bytes) : bool := blt p q.
(* peerid.cc:41-43 DebugString *)
Definition peer_debug (p : bytes) : bytes := prefix_to_hex p 4.
