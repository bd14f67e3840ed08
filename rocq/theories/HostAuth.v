(* Model of the credentials that the host checks (host/auth/auth.go).  Strings are lists
   of bytes.  HMAC-SHA256 with the secret is a function from byte strings to byte
   strings.  AlwaysAllow (auth.go:40-50, tests only) is not modelled. *)
From Verif Require Export Base.

Definition colon : N := 58.
(* strings.Index(pass, ":"), pass[:i] and pass[i+1:]; auth.go:67-74 *)
Fixpoint split_colon (s : bytes) : option (bytes * bytes) :=
  match s with
  | [] => None
  | c :: r => if c =? colon then Some ([], r)
              else match split_colon r with None => None | Some (a, b) => Some (c :: a, b) end
  end.
(* strconv.ParseUint(s, 10, 64); a number that does not fit is an error there, and an
   error of ParseInt here *)
Fixpoint parse_digits (a : N) (s : bytes) : option N :=
  match s with
  | [] => Some a
  | c :: r => if ((48 <=? c) && (c <=? 57))%bool then parse_digits (10 * a + (c - 48)) r else None
  end.
Definition parse_uint (s : bytes) : option N := match s with [] => None | _ => parse_digits 0 s end.
(* strconv.ParseInt(s, 10, 64) *)
Definition parse_int (s : bytes) : option Z :=
  match s with
  | [] => None
  | c :: r =>
      let neg := c =? 45 in
      match parse_uint (if ((c =? 43) || (c =? 45))%bool then r else s) with
      | None => None
      | Some n =>
          if (negb neg && (2 ^ 63 <=? n))%bool then None
          else if (neg && (2 ^ 63 <? n))%bool then None
          else Some (if neg then (- Z.of_N n)%Z else Z.of_N n)
      end
  end.
(* hex.DecodeString *)
Definition hex_digit (c : N) : option N :=
  if ((48 <=? c) && (c <=? 57))%bool then Some (c - 48)
  else if ((97 <=? c) && (c <=? 102))%bool then Some (c - 97 + 10)
  else if ((65 <=? c) && (c <=? 70))%bool then Some (c - 65 + 10)
  else None.
Fixpoint hex_decode (s : bytes) : option bytes :=
  match s with
  | [] => Some []
  | [_] => None
  | a :: b :: r =>
      match hex_digit a, hex_digit b, hex_decode r with
      | Some x, Some y, Some t => Some (16 * x + y :: t)
      | _, _, _ => None
      end
  end.
(* auth.go:66-78 parsePass *)
Definition parse_pass (pass : bytes) : option (Z * bytes) :=
  match split_colon pass with
  | None => None
  | Some (a, b) => match parse_int a, hex_decode b with Some ts, Some sig => Some (ts, sig) | _, _ => None end
  end.

(* %d of an int64 *)
Fixpoint dec_n (f : nat) (n : N) : bytes :=
  match f with
  | O => []
  | S f' => if n <? 10 then [48 + n] else dec_n f' (n / 10) ++ [48 + n mod 10]
  end.
Definition dec (z : Z) : bytes :=
  if (z <? 0)%Z then 45 :: dec_n (S (N.to_nat (N.log2 (Z.to_N (- z))))) (Z.to_N (- z))
  else dec_n (S (N.to_nat (N.log2 (Z.to_N z)))) (Z.to_N z).
(* %x of a byte string *)
Definition hex_char (v : N) : N := if v <? 10 then 48 + v else 97 + (v - 10).
Fixpoint hex_encode (s : bytes) : bytes :=
  match s with [] => [] | b :: r => hex_char (b / 16) :: hex_char (b mod 16) :: hex_encode r end.

(* package time: the seconds of a Time count from year 1 and wrap; Sub saturates *)
Record time := Time { t_sec : Z; t_nsec : Z }.
Definition wrap64 (z : Z) : Z := ((z + 2 ^ 63) mod 2 ^ 64 - 2 ^ 63)%Z.
Definition year1 : Z := 62135596800.
Definition internal (sec : Z) : Z := wrap64 (sec + year1).
Definition second : Z := 1000000000.
Definition time_sub (a b : time) : Z :=
  let d := ((internal (t_sec a) - internal (t_sec b)) * second + (t_nsec a - t_nsec b))%Z in
  if (d <? - 2 ^ 63)%Z then (- 2 ^ 63)%Z else if (2 ^ 63 - 1 <? d)%Z then (2 ^ 63 - 1)%Z else d.

Section Auth.
Variable hmac : bytes -> bytes.      (* HMAC-SHA256 with the secret *)
Variable expiration : Z.             (* nanoseconds *)

Definition mac_input (user : bytes) (ts : Z) : bytes := user ++ colon :: dec ts.
(* auth.go:80-93 valid *)
Definition valid (now : time) (user : bytes) (ts : Z) (sig : bytes) : bool :=
  let diff := time_sub now (Time ts 0) in
  if ((expiration <? diff) || (diff <? - expiration))%Z%bool then false
  else beq (firstn 10 (hmac (mac_input user ts))) sig.
(* auth.go:58-64 Check *)
Definition check (now : time) (user pass : bytes) : bool :=
  match parse_pass pass with None => false | Some (ts, sig) => valid now user ts sig end.
(* auth.go:95-101 PassFor *)
Definition pass_for (now : time) (user : bytes) : bytes :=
  dec (t_sec now) ++ colon :: hex_encode (firstn 10 (hmac (mac_input user (t_sec now)))).
End Auth.
