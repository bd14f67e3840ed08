(* What evidence from Nitro has to be, said independently of the code that checks it:
   the document of https://github.com/aws/aws-nitro-enclaves-nsm-api (attestation_process.md),
   in a COSE_Sign1 structure (RFC 9052). *)
From Coq Require Import Strings.String.
From Verif Require Import Nitro.

(* --- CBOR --- *)
(* elements that are all there *)
Fixpoint of_list (l : list item) : items := match l with [] => End | i :: l' => Cons i (of_list l') end.
(* a byte string, or null for none; a text; a number of 64 bits with sign *)
Definition is_bytes (i : item) (v : bytes) : Prop :=
  (i = INull /\ v = []) \/ (i = IBytes (Some (blen v)) (Some v) /\ blen v < 2 ^ 63).
Definition is_text (i : item) (v : bytes) : Prop := i = IText (Some (blen v)) (Some v) /\ blen v < 2 ^ 63.
Definition int64 (z : Z) : Prop := (- 2 ^ 63 <= z < 2 ^ 63)%Z.

(* --- COSE_Sign1 --- *)
Definition is_cose (w : nworld) (s header payload sig : bytes) : Prop :=
  exists a b c, nw_cbor w s = Some (IArr (Some 4) (of_list [a; IMap End; b; c])) /\ is_bytes a header /\ is_bytes b payload /\ is_bytes c sig.
(* the header should say: the algorithm (1) is ES384 (-35) *)
Definition es384 (w : nworld) (header : bytes) : Prop := nw_cbor w header = Some (IMap (of_list [IInt 1; IInt (-35)])).
(* but a map is also accepted if there are no two numbers at its start *)
Definition no_two_ints (w : nworld) (header : bytes) : Prop :=
  exists l, nw_cbor w header = Some (IMap l) /\ l <> Bad /\
    (forall a b rest, l = Cons (IInt a) (Cons (IInt b) rest) -> ~ int64 a \/ ~ int64 b \/ rest = Bad).

(* RFC 8949: the head of an item, with the shortest form of its number *)
Definition head (major n : N) : bytes :=
  let be k := map (fun i => n / 256 ^ N.of_nat i mod 256) (rev (seq 0 k)) in
  if n <=? 23 then [major * 32 + n] else
  if n <=? 255 then (major * 32 + 24) :: be 1%nat else
  if n <=? 65535 then (major * 32 + 25) :: be 2%nat else
  if n <=? 4294967295 then (major * 32 + 26) :: be 4%nat else (major * 32 + 27) :: be 8%nat.
(* RFC 9052, 4.4: what is signed is the array of "Signature1", header, nothing, payload *)
Definition sig_structure (header payload : bytes) : bytes :=
  head 4 4 ++ (head 3 10 ++ ascii "Signature1") ++ (head 2 (blen header) ++ header) ++ head 2 0 ++ (head 2 (blen payload) ++ payload).

(* --- the document --- *)
Definition members : Type := list (bytes * item).
(* keys and values in turn *)
Inductive doc_items : members -> items -> Prop :=
  | DI_end : doc_items [] End
  | DI_more k name v ms l : is_text k name -> doc_items ms l -> doc_items ((name, v) :: ms) (Cons k (Cons v l)).
Definition is_doc (w : nworld) (s : bytes) (ms : members) : Prop := exists l, nw_cbor w s = Some (IMap l) /\ doc_items ms l.
(* the last member with a name *)
Definition the (name : String.string) (ms : members) : option item :=
  match find (fun m => beq (fst m) (ascii name)) (rev ms) with Some (_, v) => Some v | None => None end.
(* its value; nothing if there is none *)
Definition bytes_value (o : option item) (v : bytes) : Prop := match o with Some i => is_bytes i v | None => v = [] end.
Definition text_value (o : option item) (v : bytes) : Prop := match o with Some i => is_text i v | None => v = [] end.
(* PCRs by number; certificates *)
Inductive pcr_items : list (Z * bytes) -> items -> Prop :=
  | PI_end : pcr_items [] End
  | PI_more i v b ps l : int64 i -> is_bytes v b -> pcr_items ps l -> pcr_items ((i, b) :: ps) (Cons (IInt i) (Cons v l)).
Definition is_pcrs (i : item) (ps : list (Z * bytes)) : Prop := exists l, i = IMap l /\ pcr_items ps l.
Definition is_bundle (i : item) (bs : list bytes) : Prop :=
  exists len vs, i = IArr len (of_list vs) /\ Forall2 is_bytes vs bs.
(* over all members with that name *)
Fixpoint all_pcrs (ms : members) (ps : list (Z * bytes)) : Prop :=
  match ms with
  | [] => ps = []
  | (k, v) :: ms' => exists a b, ps = a ++ b /\ (if beq k (ascii "pcrs") then is_pcrs v a else a = []) /\ all_pcrs ms' b
  end.
Fixpoint all_certs (ms : members) (bs : list bytes) : Prop :=
  match ms with
  | [] => bs = []
  | (k, v) :: ms' => exists a b, bs = a ++ b /\ (if beq k (ascii "cabundle") then is_bundle v a else a = []) /\ all_certs ms' b
  end.
(* the last value given for PCR i, where a number counts by its lowest 32 bits *)
Definition int32 (z : Z) : Z := let m := (z mod 2 ^ 32)%Z in if (m <? 2 ^ 31)%Z then m else (m - 2 ^ 32)%Z.
Definition the_pcr (i : Z) (ps : list (Z * bytes)) : option bytes :=
  match find (fun p => (int32 (fst p) =? i)%Z) (rev ps) with Some (_, v) => Some v | None => None end.
(* each member is one of the nine, and has the right kind of value *)
Definition good_member (m : bytes * item) : Prop :=
  let named l := In (fst m) (map ascii l) in
  (named ["module_id"; "digest"]%string /\ exists t, is_text (snd m) t) \/
  (named ["certificate"; "public_key"; "user_data"; "nonce"]%string /\ exists b, is_bytes (snd m) b) \/
  (named ["pcrs"]%string /\ exists ps, is_pcrs (snd m) ps) \/
  (named ["cabundle"]%string /\ exists bs, is_bundle (snd m) bs) \/
  (named ["timestamp"]%string /\ exists t, snd m = IInt t /\ int64 t).
(* Amazon's checks of the values *)
Definition good_values (ms : members) (ps : list (Z * bytes)) (bs : list bytes) (cert : bytes) : Prop :=
  (exists t, text_value (the "module_id" ms) t /\ t <> []) /\
  text_value (the "digest" ms) (ascii "SHA384") /\
  (exists t, the "timestamp" ms = Some (IInt t) /\ (0 < t)%Z) /\
  ps <> [] /\
  (forall i v, the_pcr i ps = Some v -> (0 <= i < 32)%Z /\ (blen v = 32 \/ blen v = 48 \/ blen v = 64)) /\
  1 <= blen cert <= 1024 /\ bs <> [] /\ Forall (fun c => 1 <= blen c <= 1024) bs /\
  (exists k, bytes_value (the "public_key" ms) k /\ blen k <= 1024) /\
  (exists n, bytes_value (the "nonce" ms) n /\ blen n <= 512).

(* --- everything --- *)
Definition takes_all (w : world) (s : bytes) (c : w_cert w) : Prop := w_d2i w s = Some (c, blen s).
Definition good_nitro (w : nworld) (local : list (Z * bytes)) (evidence : bytes) (now : Z) (header_ok : bytes -> bytes -> bytes -> Prop) (d : adata) : Prop :=
  exists header payload sig ms ps bs certb cert cas key t data,
    is_cose w evidence header payload sig /\ header_ok header payload sig /\
    (* the document *)
    is_doc w payload ms /\ Forall good_member ms /\ all_pcrs ms ps /\ all_certs ms bs /\ bytes_value (the "certificate" ms) certb /\
    good_values ms ps bs certb /\
    (* Amazon's root vouches for the certificate, give or take an hour *)
    takes_all (nw_world w) certb cert /\ Forall2 (takes_all (nw_world w)) bs cas /\
    In t [now + 3600; now; now - 3600]%Z /\ w_chain (nw_world w) (nw_roots w) cas cert t = true /\
    (* and its key signed header and document *)
    w_pubkey (nw_world w) cert = Some (PEc key) /\ blen sig = 96 /\
    w_ecdsa (nw_world w) key (w_sha384 (nw_world w) (sig_structure header payload)) (be_value (firstn 48 sig)) (be_value (skipn 48 sig)) = true /\
    (* same software, and the data *)
    (forall i, In i [0; 1; 2]%Z -> exists v, pcr_get i local = Some v /\ the_pcr i ps = Some v) /\
    bytes_value (the "user_data" ms) data /\ blen data <= 512 /\ w_data (nw_world w) data = Some d.

(* no string in it is said to be longer than memory can be *)
Definition short (len : option N) : Prop := match len with Some n => n < 2 ^ 63 | None => True end.
Fixpoint short_item (i : item) : Prop :=
  match i with
  | IBytes len _ | IText len _ => short len
  | IArr _ l | IMap l => short_items l
  | IInt _ | INull | IOther => True
  end
with short_items (l : items) : Prop := match l with Cons i l' => short_item i /\ short_items l' | End | Bad => True end.
