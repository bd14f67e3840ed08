(* Model of enclave/attestation/nitro/nitro.{h,cc} and of Attest and PCRsMatch in
   enclave/env/nsm/nsm.cc.

   tinycbor is not in /repo.  What it reads from bytes is a value below: containers are read
   as they are walked, so that behind good elements there can be bytes that are none (Bad).
   All errors are one, as Attest makes one of them (nsm.cc:88).  Allocations of up to
   2^63 - 1 bytes do not fail. *)
From Coq Require Import Strings.String.
From Verif Require Export Evidence.

Inductive item :=
  | IInt (v : Z)
  (* declared length, if there is one, and the bytes, if they are all there *)
  | IBytes (len : option N) (content : option bytes)
  | IText (len : option N) (content : option bytes)
  | INull
  | IArr (len : option N) (l : items)
  | IMap (l : items)
  | IOther
with items := End | Bad | Cons (i : item) (rest : items).

Record nworld := NWorld {
  nw_world : world;
  (* cbor_parser_init: the value at the start of the bytes; what is behind it is ignored *)
  nw_cbor : bytes -> option item;
  (* nitro.cc:93-108: Amazon's root *)
  nw_roots : list (w_cert nw_world) }.

(* std::vector::resize and std::string::resize throw above this size *)
Definition MAX_SIZE : N := 2 ^ 63 - 1.
Definition resize (n : N) : outcome unit := if MAX_SIZE <? n then Crash else Ret tt.
Definition is_bad (l : items) : bool := match l with Bad => true | _ => false end.

(* nitro.cc:32-39 and 54-61: the string is there, and what follows can be read *)
Definition string_value (len : option N) (content : option bytes) (rest : items) : outcome (option bytes) :=
  match len with
  | None => Ret None
  | Some n =>
      let* _ := resize n in
      match content with
      | Some c => if (blen c =? n) && negb (is_bad rest) then Ret (Some c) else Ret None
      | None => Ret None
      end
  end%bool.
(* nitro.cc:27-40 CborTextString *)
Definition cbor_text (l : items) : outcome (option (bytes * items)) :=
  match l with
  | Cons (IText len c) rest =>
      let* v := string_value len c rest in match v with Some v => Ret (Some (v, rest)) | None => Ret None end
  | _ => Ret None
  end.
(* nitro.cc:42-62 CborByteString *)
Definition cbor_bytes (l : items) : outcome (option (bytes * items)) :=
  match l with
  | Cons INull rest => if is_bad rest then Ret None else Ret (Some ([], rest))
  | Cons (IBytes len c) rest =>
      let* v := string_value len c rest in match v with Some v => Ret (Some (v, rest)) | None => Ret None end
  | _ => Ret None
  end.
(* nitro.cc:64-72 CborInt *)
Definition cbor_int (l : items) : option (Z * items) :=
  match l with
  | Cons (IInt v) rest => if ((- 2 ^ 63 <=? v) && (v <? 2 ^ 63))%Z && negb (is_bad rest) then Some (v, rest) else None
  | _ => None
  end%bool.
Definition at_end (l : items) : bool := match l with End => true | _ => false end.

(* --- COSE ------------------------------------------------------------------------ *)
(* nitro.h:24-34 *)
Record cose := Cose { cs_header : bytes; cs_payload : bytes; cs_sig : bytes }.

(* nitro.cc:154-178 CoseSign1::Valid.  ASSIGN_OR_RETURN (10-17) returns the error, which
   as a bool is true. *)
Definition cose_valid (w : nworld) (c : cose) : bool :=
  match nw_cbor w (cs_header c) with
  | Some (IMap l) =>
      if is_bad l then false else
      match cbor_int l with
      | None => true
      | Some (key, l) =>
          match cbor_int l with
          | None => true
          | Some (val, l) =>
              if negb (at_end l) then false else
              if (negb (key =? 1)%Z || negb (val =? -35)%Z)%bool then false else
              ((0 <? blen (cs_payload c)) && (blen (cs_sig c) =? 96))%bool
          end
      end
  | _ => false
  end.
(* nitro.cc:118-152 CoseSign1::ParseFromBytes *)
Definition cose_parse (w : nworld) (s : bytes) : outcome (option cose) :=
  match nw_cbor w s with
  | Some (IArr (Some n) l) =>
      if (negb (n =? 4) || is_bad l)%bool then Ret None else
      let* h := cbor_bytes l in
      match h with
      | None => Ret None
      | Some (h, l) =>
          match l with
          | Cons (IMap End) l =>
              if is_bad l then Ret None else
              let* p := cbor_bytes l in
              match p with
              | None => Ret None
              | Some (p, l) =>
                  let* g := cbor_bytes l in
                  match g with
                  | None => Ret None
                  | Some (g, l) =>
                      if negb (at_end l) then Ret None else
                      let c := Cose h p g in
                      if cose_valid w c then Ret (Some c) else Ret None
                  end
              end
          | _ => Ret None
          end
      end
  | _ => Ret None
  end.

(* RFC 8949, 3: the head of an item of a major type below 8 *)
Definition cbor_head (major n : N) : bytes :=
  if n <? 24 then [major * 32 + n] else
  if n <? 2 ^ 8 then [major * 32 + 24; n] else
  if n <? 2 ^ 16 then (major * 32 + 25) :: skipn 6 (be64 n) else
  if n <? 2 ^ 32 then (major * 32 + 26) :: skipn 4 (be64 n) else
  (major * 32 + 27) :: be64 n.
(* nitro.cc:180-196 CoseSign1::SigningBytes; the buffer (181) is large enough *)
Definition signing_bytes (c : cose) : bytes :=
  cbor_head 4 4 ++
  cbor_head 3 10 ++ ascii "Signature1"%string ++
  cbor_head 2 (blen (cs_header c)) ++ cs_header c ++
  cbor_head 2 0 ++
  cbor_head 2 (blen (cs_payload c)) ++ cs_payload c.

(* --- the document ---------------------------------------------------------------- *)
(* nitro.h:36-56; pcrs in the order of their last writing *)
Record doc := Doc { do_module : bytes; do_digest : bytes; do_time : Z; do_pcrs : list (Z * bytes); do_cert : bytes; do_bundle : list bytes;
  do_key : bytes; do_data : bytes; do_nonce : bytes }.
Definition empty_doc : doc := Doc [] [] 0 [] [] [] [] [] [].

(* int64_t to int *)
Definition to_int (z : Z) : Z := ((z + 2 ^ 31) mod 2 ^ 32 - 2 ^ 31)%Z.
(* this->pcrs[key] = val *)
Definition pcr_put (i : Z) (v : bytes) (m : list (Z * bytes)) : list (Z * bytes) := (i, v) :: filter (fun x => negb (fst x =? i)%Z) m.
Definition pcr_get (i : Z) (m : list (Z * bytes)) : option bytes :=
  match find (fun x => (fst x =? i)%Z) m with Some (_, v) => Some v | None => None end.

(* nitro.cc:250-254 *)
Fixpoint pcrs_loop (l : items) (m : list (Z * bytes)) : outcome (option (list (Z * bytes))) :=
  match l with
  | End => Ret (Some m)
  | Bad => Ret None
  | Cons k rest =>
      match cbor_int l, rest with
      | Some (k, _), Cons v rest' =>
          let* b := cbor_bytes rest in
          match b with Some (b, _) => pcrs_loop rest' (pcr_put (to_int k) b m) | None => Ret None end
      | _, _ => Ret None
      end
  end.
(* nitro.cc:266-269 *)
Fixpoint bundle_loop (l : items) (bs : list bytes) : outcome (option (list bytes)) :=
  match l with
  | End => Ret (Some bs)
  | Bad => Ret None
  | Cons v rest =>
      let* b := cbor_bytes l in
      match b with Some (b, _) => bundle_loop rest (bs ++ [b]) | None => Ret None end
  end.
(* nitro.cc:224-278: one member *)
Definition member_value (key : bytes) (v : item) (rest : items) (d : doc) : outcome (option doc) :=
  let '(Doc mo di ti pc ce bu ke da no) := d in
  let with_bytes (f : bytes -> doc) := let* x := cbor_bytes (Cons v rest) in match x with Some (x, _) => Ret (Some (f x)) | None => Ret None end in
  let with_text (f : bytes -> doc) := let* x := cbor_text (Cons v rest) in match x with Some (x, _) => Ret (Some (f x)) | None => Ret None end in
  if beq key (ascii "module_id") then with_text (fun x => Doc x di ti pc ce bu ke da no)
  else if beq key (ascii "digest") then with_text (fun x => Doc mo x ti pc ce bu ke da no)
  else if beq key (ascii "certificate") then with_bytes (fun x => Doc mo di ti pc x bu ke da no)
  else if beq key (ascii "public_key") then with_bytes (fun x => Doc mo di ti pc ce bu x da no)
  else if beq key (ascii "user_data") then with_bytes (fun x => Doc mo di ti pc ce bu ke x no)
  else if beq key (ascii "nonce") then with_bytes (fun x => Doc mo di ti pc ce bu ke da x)
  else if beq key (ascii "pcrs") then
    match v with
    | IMap l =>
        let* m := pcrs_loop l pc in
        match m with Some m => if is_bad rest then Ret None else Ret (Some (Doc mo di ti m ce bu ke da no)) | None => Ret None end
    | _ => Ret None
    end
  else if beq key (ascii "cabundle") then
    match v with
    | IArr _ l =>
        let* bs := bundle_loop l bu in
        match bs with Some bs => if is_bad rest then Ret None else Ret (Some (Doc mo di ti pc ce bs ke da no)) | None => Ret None end
    | _ => Ret None
    end
  else if beq key (ascii "timestamp") then
    match cbor_int (Cons v rest) with Some (t, _) => Ret (Some (Doc mo di t pc ce bu ke da no)) | None => Ret None end
  else Ret None.
(* nitro.cc:222-279.  A key with nothing behind it is an error, as no value has the type
   that its member needs. *)
Fixpoint doc_loop (l : items) (d : doc) : outcome (option doc) :=
  match l with
  | End => Ret (Some d)
  | Bad => Ret None
  | Cons k rest =>
      let* key := cbor_text l in
      match key, rest with
      | Some (key, _), Cons v rest' =>
          let* d' := member_value key v rest' d in
          match d' with Some d' => doc_loop rest' d' | None => Ret None end
      | _, _ => Ret None
      end
  end.
(* nitro.cc:284-313 AttestationDoc::Valid *)
Definition doc_valid (d : doc) : bool :=
  (negb (blen (do_module d) =? 0) && beq (do_digest d) (ascii "SHA384") && negb (do_time d <=? 0)%Z
   && negb ((length (do_pcrs d) <? 1)%nat || (32 <? length (do_pcrs d))%nat)
   && forallb (fun x => negb ((fst x <? 0)%Z || (32 <=? fst x)%Z) && ((blen (snd x) =? 32) || (blen (snd x) =? 48) || (blen (snd x) =? 64))) (do_pcrs d)
   && negb ((blen (do_cert d) <? 1) || (1024 <? blen (do_cert d)))
   && forallb (fun c => negb ((blen c <? 1) || (1024 <? blen c))) (do_bundle d)
   && negb (length (do_bundle d) =? 0)%nat
   && negb (1024 <? blen (do_key d)) && negb (512 <? blen (do_data d)) && negb (512 <? blen (do_nonce d)))%bool.
(* nitro.cc:210-282 AttestationDoc::ParseFromBytes *)
Definition doc_parse (w : nworld) (s : bytes) : outcome (option doc) :=
  match nw_cbor w s with
  | Some (IMap l) =>
      if is_bad l then Ret None else
      let* d := doc_loop l empty_doc in
      match d with Some d => if doc_valid d then Ret (Some d) else Ret None | None => Ret None end
  | _ => Ret None
  end.

(* --- verification ---------------------------------------------------------------- *)
(* nitro.cc:315-322 and 329-332: a certificate that takes all of the bytes *)
Definition whole_cert (w : world) (s : bytes) : option (w_cert w) :=
  match w_d2i w s with Some (c, n) => if n =? blen s then Some c else None | None => None end.
(* nitro.cc:324-337 CABundle *)
Fixpoint bundle_certs (w : world) (l : list bytes) : option (list (w_cert w)) :=
  match l with
  | [] => Some []
  | s :: l' => match whole_cert w s, bundle_certs w l' with Some c, Some cs => Some (c :: cs) | _, _ => None end
  end.
(* most significant byte first: BN_bin2bn *)
Definition be_value (s : bytes) : N := fold_left (fun v b => 256 * v + b) s 0.
(* nitro.cc:26 *)
Definition SKEW : Z := 3600.
(* nitro.cc:339-406 Verify *)
Definition nitro_verify (w : nworld) (d : doc) (c : cose) (now : Z) : bool :=
  match whole_cert (nw_world w) (do_cert d), bundle_certs (nw_world w) (do_bundle d) with
  | Some cert, Some bundle =>
      if negb (existsb (fun t => w_chain (nw_world w) (nw_roots w) bundle cert t) [now + SKEW; now; now - SKEW]%Z) then false else
      match w_pubkey (nw_world w) cert with
      | None => false
      | Some k =>
          let md := w_sha384 (nw_world w) (signing_bytes c) in
          if negb (blen (cs_sig c) =? 96) then false else
          match k with
          | PEc ec => w_ecdsa (nw_world w) ec md (be_value (firstn 48 (cs_sig c))) (be_value (skipn 48 (cs_sig c)))
          | _ => false
          end
      end
  | _, _ => false
  end.

(* nsm.cc:145-151 PCRMatches *)
Definition pcr_matches (i : Z) (local remote : list (Z * bytes)) : bool :=
  match pcr_get i local, pcr_get i remote with Some a, Some b => beq a b | _, _ => false end.
(* nsm.cc:153-166 PCRsMatch *)
Definition pcrs_match (local remote : list (Z * bytes)) : bool :=
  (pcr_matches 0 local remote && pcr_matches 1 local remote && pcr_matches 2 local remote)%bool.
(* nsm.cc:66-91 Attest, not simulated *)
Definition nitro_attest (w : nworld) (local : list (Z * bytes)) (evidence : bytes) (now : Z) : outcome (option adata) :=
  let* c := cose_parse w evidence in
  match c with
  | None => Ret None
  | Some c =>
      let* d := doc_parse w (cs_payload c) in
      match d with
      | None => Ret None
      | Some d => if (nitro_verify w d c now && pcrs_match local (do_pcrs d))%bool then Ret (w_data (nw_world w) (do_data d)) else Ret None
      end
  end.
